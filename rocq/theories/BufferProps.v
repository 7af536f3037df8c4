(** Theorems about buffers: C49-C52. *)

From Coq Require Import ZArith Arith Bool Lia List.
From Verif Require Import Base ExpandModel ExpandSpec ExpandProofs RangeProofs BufferModel BufferSpec BufferProofs BufferSim.
Import ListNotations.
Local Open Scope Z_scope.

Section Props.
  Context {V : Type}.
  Variable v0 : V.
  Variable trivial : bool.
  Variable moved : V -> V.
  Notation op := (op (V := V)).

  Notation run := (run v0 trivial moved).
  Notation arun := (arun v0 trivial moved).
  Notation step := (step v0 trivial moved).

  (** C49.  In every history the results are those of the specification, in which buffers are just sequences of values. *)
  Theorem C49_value_semantics : forall (h : list op) s rs, Forall op_ok h -> arun h [] = Some (s, rs) ->
    snd (run h initial) = rs.
  Proof.
    intros h s rs Hc H. destruct (run_sim v0 trivial moved h initial [] s rs R_initial ltac:(constructor) Hc H) as (st & E & _). rewrite E. reflexivity.
  Qed.

  (** No access outside of live storage, no invalid and no repeated delete. *)
  Theorem C49_memory_safe : forall (h : list op) s rs, Forall op_ok h -> arun h [] = Some (s, rs) ->
    ~ In (inr MemErr) (snd (run h initial)).
  Proof.
    intros h s rs Hc H. destruct (run_sim v0 trivial moved h initial [] s rs R_initial ltac:(constructor) Hc H) as (st & E & _ & N). rewrite E. exact N.
  Qed.

  (** At any time the blocks not yet freed are exactly as many as there are live buffers using the heap ... *)
  Theorem C49_no_leak : forall (h : list op) s rs, Forall op_ok h -> arun h [] = Some (s, rs) -> ~ In (inr Indet) rs ->
    live_blocks (fst (run h initial)) = buffers_on_heap s.
  Proof.
    intros h s rs Hc H N. destruct (run_sim v0 trivial moved h initial [] s rs R_initial ltac:(constructor) Hc H) as (st & E & K & _). rewrite E.
    destruct (K N) as [HR _]. exact (R_count _ _ HR).
  Qed.
  (** ... and when no buffer is left, every block has been freed. *)
  Theorem C49_all_freed : forall (h : list op) s rs, Forall op_ok h -> arun h [] = Some (s, rs) -> ~ In (inr Indet) rs ->
    (forall o, a_live s o = None) -> Forall (fun b => b = Freed) (heap (fst (run h initial))).
  Proof.
    intros h s rs Hc H N D. pose proof (C49_no_leak h s rs Hc H N) as C.
    assert (Z : buffers_on_heap s = 0%nat).
    { unfold buffers_on_heap. assert (E : forall s' : astate, (forall ob, In ob s' -> ob = None) -> filter (fun ob => match ob with Some b => uses_heap (a_shape b) (Z.of_nat (a_size (V := V) b)) | None => false end) s' = []).
      { induction s' as [|x s' IH]; intro Q; [reflexivity|]. cbn. rewrite (Q x (or_introl eq_refl)). apply IH. intros; apply Q; right; auto. }
      rewrite E; [reflexivity|]. intros ob I. apply In_nth_error in I. destruct I as [o I]. specialize (D o). unfold a_live in D. rewrite I in D. destruct ob; [discriminate|reflexivity]. }
    rewrite Z in C. unfold live_blocks in C. apply Forall_forall. intros b I.
    destruct b as [cs|]; [|reflexivity]. exfalso.
    assert (I' : In (Live cs) (filter (fun b => match b with Live _ => true | Freed => false end) (heap (fst (run h initial))))) by (apply filter_In; auto).
    destruct (filter _ _); [destruct I'|discriminate].
  Qed.

  (** What an operation on one buffer writes is not seen through another one. *)
  Definition observes (o : nat) (d : op) : Prop :=
    match d with ORead o' _ | OFront o' | OBack o' | OGet o' _ | OIterate o' | OSize o' | OEmpty o' => o' = o | _ => False end.
  Definition modifies (o : nat) (c : op) : Prop :=
    match c with OWrite o' _ _ | OAssignArray o' _ _ | ODestroy o' => o' = o | OAssign o' _ _ => o' = o | _ => False end.
  Theorem C49_no_alias : forall (h : list op) s rs o o' c d s1 r1 s2 r2, Forall op_ok h -> arun h [] = Some (s, rs) -> ~ In (inr Indet) rs ->
    op_ok c -> op_ok d -> modifies o c -> observes o' d -> o <> o' ->
    astep v0 trivial moved c s = Some (s1, r1) -> r1 <> inr Indet -> astep v0 trivial moved d s = Some (s2, r2) ->
    snd (step d (fst (step c (fst (run h initial))))) = snd (step d (fst (run h initial))).
  Proof.
    intros h s rs o o' c d s1 r1 s2 r2 Hh H N Hc Hd Mc Od Ne E1 N1 E2.
    destruct (run_sim v0 trivial moved h initial [] s rs R_initial ltac:(constructor) Hh H) as (st & E & K & _). rewrite E. cbn [fst].
    destruct (K N) as [HR Hw].
    destruct (step_sim v0 trivial moved c st s s1 r1 HR Hw Hc E1) as ((st1 & F1 & F2) & Hw1 & _). rewrite F1. cbn [fst].
    destruct (step_sim v0 trivial moved d st s s2 r2 HR Hw Hd E2) as ((st2 & G1 & _) & _). rewrite G1. cbn [snd].
    assert (L : a_live s1 o' = a_live s o').
    { unfold a_live. assert (Q : nth_error s1 o' = nth_error s o'); [|rewrite Q; reflexivity].
      destruct c; cbn [modifies] in Mc; try contradiction; subst; cbn [astep] in E1;
        repeat match type of E1 with context [match ?x with _ => _ end] => destruct x end; try discriminate;
        injection E1 as <- _; try reflexivity; unfold a_set; apply nth_error_upd_other; assumption. }
    assert (E3 : exists s3, astep v0 trivial moved d s1 = Some (s3, r2)).
    { destruct d; cbn [observes] in Od; try contradiction; subst; cbn [astep] in E2 |- *; rewrite L;
        repeat match type of E2 with context [match ?x with _ => _ end] => destruct x end; try discriminate;
        injection E2 as _ <-; eauto. }
    destruct E3 as [s3 E3].
    destruct (step_sim v0 trivial moved d st1 s1 s3 r2 (F2 N1) Hw1 Hd E3) as ((st3 & G3 & _) & _). rewrite G3. reflexivity.
  Qed.

  Lemma live_count : forall (st : state (V := V)) s, R st s -> live_blocks st = length (filter on_heap s).
  Proof. intros st s H. exact (R_count _ _ H). Qed.

  (** C50.  Constructing a buffer takes a heap block iff the number of elements exceeds the documented limit; its size
      is the requested one. *)
  Theorem C50_placement : forall (h : list op) s rs E Mx a avail, Forall op_ok h -> arun h [] = Some (s, rs) -> ~ In (inr Indet) rs ->
    sensible (Buffer E Mx) -> proper_size a ->
    let st := fst (run h initial) in
    let '(st', r) := step (ONew (Buffer E Mx) a avail) st in
    match r with
    | inl (RObj o) =>
        step (OSize o) st' = (st', inl (RSize (sa_value a))) /\
        live_blocks st' = (live_blocks st + match documented_limit E Mx with
                                            | Some l => if (l <? sa_value a)%Z then 1 else 0
                                            | None => 0
                                            end)%nat
    | _ => live_blocks st' = live_blocks st
    end.
  Proof.
    intros h s rs E Mx a avail Hh H N Hs Ha.
    destruct (run_sim v0 trivial moved h initial [] s rs R_initial ltac:(constructor) Hh H) as (st & Er & K & _). rewrite Er. cbn [fst].
    destruct (K N) as [HR Hw]. pose proof (sim_new v0 trivial moved st s (Buffer E Mx) a avail HR Hw Hs Ha) as S.
    unfold a_construct in S. cbn [shape_extent] in S. set (C1 := sa_const a && _ && _) in S. destruct C1.
    { cbn [a_add] in S. destruct S as ((st' & S1 & S2) & _). rewrite S1. rewrite (live_count _ _ HR), (live_count _ _ (S2 ltac:(discriminate))). reflexivity. }
    destruct (heap_fails (Buffer E Mx) (sa_value a mod 2 ^ 64) avail) eqn:HF.
    { cbn [a_add] in S. destruct S as ((st' & S1 & S2) & _). rewrite S1. rewrite (live_count _ _ HR), (live_count _ _ (S2 ltac:(discriminate))).
      rewrite count_snoc. cbn [on_heap]. lia. }
    destruct (if E =? -1 then (0 <=? sa_value a) && true else sa_value a =? E) eqn:OK.
    2:{ cbn [a_add] in S. destruct S as ((st' & S1 & S2) & _). rewrite S1. rewrite (live_count _ _ HR), (live_count _ _ (S2 ltac:(discriminate))).
      rewrite count_snoc. cbn [on_heap]. lia. }
    cbn [a_add] in S. destruct S as ((st' & S1 & S2) & Hw' & _). rewrite S1. specialize (S2 ltac:(discriminate)).
    assert (P : 0 <= sa_value a) by (cbn [sensible] in Hs; destruct (Z.eqb_spec E (-1)); lia).
    split.
    - destruct (R_abs _ _ _ _ S2 (live_snoc _ _)) as (ob & G1 & G2 & G3 & G4 & G5). unfold step, BufferModel.step, as_res, bindM, get_obj, ret. rewrite G1, G4.
      cbn [a_size]. rewrite Z2Nat.id by lia. reflexivity.
    - rewrite (live_count _ _ HR), (live_count _ _ S2).
      rewrite count_snoc. f_equal. cbn [on_heap a_shape a_size]. rewrite Z2Nat.id by lia. unfold uses_heap, documented_limit. cbn [heap_limit sensible] in *.
      destruct (Z.eqb_spec E (-1)) as [->|NE].
      + destruct (Z.ltb_spec Mx 0); [rewrite Z.max_l by lia|rewrite Z.max_r by lia]; reflexivity.
      + apply Z.eqb_eq in OK. rewrite OK. destruct (Z.ltb_spec Mx 0); cbn [orb]; [reflexivity|].
        destruct (Z.ltb_spec 0 Mx); cbn [andb].
        * destruct (Z.leb_spec E Mx); destruct (Z.ltb_spec Mx E); try lia; try reflexivity. destruct (Z.ltb_spec 0 E); [reflexivity|lia].
        * assert (Mx = 0) by lia. subst. reflexivity.
  Qed.

  (** C51.  Exactly which elements of a new buffer are value-initialised.  The claim is true unless the elements are of a
      trivial type and are placed in the small buffer of a buffer<> of dynamic extent. *)
  Theorem C51_initial_elements_partial : forall (h : list op) s rs sh a avail, Forall op_ok h -> arun h [] = Some (s, rs) -> ~ In (inr Indet) rs ->
    sensible sh -> proper_size a ->
    let '(st', r) := step (ONew sh a avail) (fst (run h initial)) in
    forall o, r = inl (RObj o) ->
    step (OIterate o) st' =
      (st', if trivial && match sh with Buffer (-1) Mx => (0 <? sa_value a) && (sa_value a <=? Mx) | _ => false end
            then inr Indet else inl (RVals (repeat v0 (Z.to_nat (sa_value a))))).
  Proof.
    intros h s rs sh a avail Hh H N Hs Ha.
    destruct (run_sim v0 trivial moved h initial [] s rs R_initial ltac:(constructor) Hh H) as (st & Er & K & _). rewrite Er. cbn [fst].
    destruct (K N) as [HR Hw]. pose proof (sim_new v0 trivial moved st s sh a avail HR Hw Hs Ha) as S.
    destruct (a_construct v0 trivial sh a avail) as [b|e] eqn:AC.
    2:{ assert (NR : forall o, snd (a_add (V := V) s (inr e)) <> inl (RObj o)) by (intro o; destruct e; cbn; discriminate).
        destruct (a_add s (inr e)) as [s' r]. destruct S as ((st' & S1 & _) & _). rewrite S1. intros o Q. destruct (NR o Q). }
    cbn [a_add] in S. destruct S as ((st' & S1 & S2) & Hw' & _). rewrite S1. intros o Q. injection Q as <-. specialize (S2 ltac:(discriminate)).
    assert (B : b = mk_abuf sh (Z.to_nat (sa_value a)) (new_cells v0 trivial sh (sa_value a)) /\ 0 <= sa_value a).
    { unfold a_construct in AC. destruct (_ && _ && _); [discriminate|]. destruct (heap_fails _ _ _); [discriminate|].
      destruct (Z.eqb_spec (shape_extent sh) (-1)) as [Y|Y].
      - destruct (Z.leb_spec 0 (sa_value a)); [|discriminate]. destruct (match sh with FixedBuffer _ Mx => sa_value a <=? Mx | _ => true end); [|discriminate]. cbn in AC. injection AC as <-. auto.
      - destruct (Z.eqb_spec (sa_value a) (shape_extent sh)); [|discriminate]. injection AC as <-. split; auto. destruct sh; cbn in *; lia. }
    destruct B as [-> P]. set (b := mk_abuf sh (Z.to_nat (sa_value a)) (new_cells v0 trivial sh (sa_value a))) in *.
    assert (Wb : wf_buf b) by (apply (awf_live _ _ _ Hw' (live_snoc _ _))). destruct Wb as (_ & _ & W & _).
    assert (E2 : astep v0 trivial moved (OIterate (length s)) (s ++ [Some b]) = Some (s ++ [Some b],
       if trivial && match sh with Buffer (-1) Mx => (0 <? sa_value a) && (sa_value a <=? Mx) | _ => false end
            then inr Indet else inl (RVals (repeat v0 (Z.to_nat (sa_value a)))))).
    { cbn [astep]. unfold a_live. rewrite live_snoc. unfold elements. cbn [b a_size a_cells] in *.
      assert (F : firstn (Z.to_nat (sa_value a)) (new_cells v0 trivial sh (sa_value a)) = repeat (new_cell v0 trivial sh (sa_value a)) (Z.to_nat (sa_value a))).
      { unfold new_cells in *. rewrite repeat_length in W. apply firstn_repeat. lia. }
      rewrite F. clear. do 2 f_equal.
      assert (G : forall n, first_bad (repeat (Some v0) n) None = None /\ flat_map (fun c : option V => match c with Some v => [v] | None => [] end) (repeat (Some v0) n) = repeat v0 n).
      { induction n as [|n [I1 I2]]; cbn [repeat flat_map]; [split; reflexivity|]. rewrite first_bad_some, I1, I2. split; reflexivity. }
      assert (PLAIN : match first_bad (repeat (Some v0) (Z.to_nat (sa_value a))) None with Some (_, e) => inr e
                      | None => inl (RVals (flat_map (fun c : option V => match c with Some v => [v] | None => [] end) (repeat (Some v0) (Z.to_nat (sa_value a))))) end
                      = inl (RVals (repeat v0 (Z.to_nat (sa_value a)))) :> result + fault).
      { destruct (G (Z.to_nat (sa_value a))) as [-> ->]. reflexivity. }
      unfold new_cell. destruct sh as [E Mx|E Mx]; [|rewrite andb_false_r; exact PLAIN].
      destruct E as [|p|p]; try (rewrite andb_false_r; exact PLAIN). destruct p; try (rewrite andb_false_r; exact PLAIN).
      destruct trivial; cbn [andb]; [|exact PLAIN].
      destruct (Z.ltb_spec 0 Mx); destruct (Z.leb_spec (sa_value a) Mx); destruct (Z.ltb_spec 0 (sa_value a)); cbn [andb]; try lia; try exact PLAIN.
      - destruct (Z.to_nat (sa_value a)) eqn:X; [lia|]. cbn [repeat]. rewrite first_bad_none. reflexivity.
      - replace (Z.to_nat (sa_value a)) with 0%nat by lia. reflexivity. }
    destruct (step_sim v0 trivial moved (OIterate (length s)) st' _ _ _ S2 Hw' Logic.I E2) as ((st2 & G1 & _) & _).
    rewrite G1. f_equal. assert (Z : fst (step (OIterate (length s)) st') = st').
    { unfold step, BufferModel.step, as_res, iterate, bindM, get_obj, ret. destruct (nth_error (objs st') (length s)) as [[ob|]|]; try reflexivity.
      assert (LA : forall n i, fst (load_all (data_of (length s) ob) i n st') = st').
      { induction n as [|n IH]; intro i; [reflexivity|]. cbn [load_all]. unfold bindM, ret.
        assert (L : fst (load (data_of (length s) ob) (Z.of_nat i) st') = st').
        { unfold load. destruct (region st' (data_of (length s) ob)); [|reflexivity]. destruct (Z.of_nat i <? 0); [reflexivity|]. destruct (nth_error l (Z.to_nat (Z.of_nat i))) as [[v|]|]; reflexivity. }
        destruct (load (data_of (length s) ob) (Z.of_nat i) st') as [x [v|e]]; cbn [fst] in L; subst x; [|reflexivity].
        specialize (IH (S i)). destruct (load_all (data_of (length s) ob) (S i) n st') as [x [v'|e]]; cbn [fst] in IH; subst x; reflexivity. }
      specialize (LA (Z.to_nat (size_of ob)) 0%nat). destruct (load_all (data_of (length s) ob) 0 (Z.to_nat (size_of ob)) st') as [x [v|e]]; cbn [fst] in *; auto. }
    rewrite G1 in Z. exact Z.
  Qed.

  (** C52.  Histories in which no fixed_buffer<> is constructed from an array longer than its capacity: every
      fixed_buffer<> ever alive stays within its capacity (and by C49_memory_safe nothing outside of it is accessed). *)
  Theorem C52_capacity_partial : forall (h : list op) s rs o E Mx n cs, Forall op_ok h -> arun h [] = Some (s, rs) -> ~ In (inr Indet) rs ->
    a_live s o = Some (mk_abuf (FixedBuffer E Mx) n cs) ->
    step (OSize o) (fst (run h initial)) = (fst (run h initial), inl (RSize (Z.of_nat n))) /\ Z.of_nat n <= Mx.
  Proof.
    intros h s rs o E Mx n cs Hh H N L.
    destruct (run_sim v0 trivial moved h initial [] s rs R_initial ltac:(constructor) Hh H) as (st & Er & K & _). rewrite Er. cbn [fst].
    destruct (K N) as [HR Hw]. destruct (live_obj _ _ _ _ HR L) as (ob & H2 & H1 & H3). split.
    - unfold step, BufferModel.step, as_res, bindM, get_obj, ret. rewrite H1. destruct H3 as (_ & _ & H3 & _). rewrite H3. reflexivity.
    - destruct (awf_live _ _ _ Hw H2) as (W1 & W2 & W3 & W4). cbn [a_shape a_size a_cells shape_extent sensible capacity] in *.
      destruct (Z.eq_dec E (-1)) as [->|]; lia.
  Qed.

  (** Sizes that do not fit are contract violations. *)
  Theorem C52_size_ctor : forall st Mx t n avail, 0 <= Mx < 2 ^ 63 -> 1 <= ity_bits t <= 64 -> in_ity t n = true -> n < 0 \/ Mx < n ->
    snd (step (ONew (FixedBuffer (-1) Mx) (mk_size t false n) avail) st) = inr Violated.
  Proof.
    intros st Mx t n avail HM Ht Hn Hx. assert (P : proper_size (mk_size t false n)) by (split; [|split]; auto; discriminate).
    assert (S : sensible (FixedBuffer (-1) Mx)) by (cbn; lia).
    unfold step, BufferModel.step, as_res, construct. rewrite (shape_ok_sensible _ S), (size_ctor_spec _ _ P). cbn [sa_const andb negb].
    unfold construct_base, layout_of, static_buffer_base. change (-1 =? -1) with true. cbn iota. unfold bindM, next_obj, push_obj.
    rewrite (check_spec _ _ S P). cbn [shape_extent sa_value]. change (-1 =? -1) with true. cbn iota.
    assert (F : (0 <=? n) && (n <=? Mx) = false) by lia. rewrite F. unfold unwind, fail, destroy_base, bindM, get_obj. cbn [objs].
    rewrite nth_error_snoc, Nat.eqb_refl. cbn [o_shape]. unfold layout_of, static_buffer_base. change (-1 =? -1) with true. reflexivity.
  Qed.

  (** The array constructor does not check: it writes outside of the object whenever the array is too long. *)
  Theorem C52_array_ctor_overflows : forall st Mx vs avail, 0 <= Mx < Z.of_nat (length vs) -> Z.of_nat (length vs) < 2 ^ 63 ->
    snd (step (OFromArray (FixedBuffer (-1) Mx) vs avail None) st) = inr MemErr.
  Proof.
    intros st Mx vs avail HM Hl. assert (S : sensible (FixedBuffer (-1) Mx)) by (cbn; lia).
    unfold step, BufferModel.step, as_res, construct_from_array. rewrite (shape_ok_sensible _ S). cbn [shape_extent]. change (-1 =? dynamic_extent) with true.
    destruct (Z.ltb_spec 0 (Z.of_nat (length vs))); [|lia]. cbn [andb orb].
    unfold construct_base, layout_of, static_buffer_base. change (-1 =? -1) with true. cbn iota.
    unfold bindM at 1 2 3. unfold next_obj, push_obj. set (ob := mk_object _ _ _ _). set (st1 := mk_state _ _).
    assert (G : forall ws st2 ob2 i, nth_error (objs st2) (length (objs st)) = Some (Some ob2) -> length (o_buf ob2) = Z.to_nat Mx -> (Z.to_nat Mx < i + length ws)%nat -> (i <= Z.to_nat Mx)%nat ->
      snd (copy_values (V := V) ws (PObj (length (objs st))) None i st2) = inr MemErr).
    { induction ws as [|w ws IH]; intros st2 ob2 i G1 G2 G3 G4; cbn [length] in G3; [lia|]. cbn [copy_values throws]. unfold bindM, store. cbn [region]. rewrite G1.
      destruct (Z.ltb_spec (Z.of_nat i) 0); [lia|]. destruct (Z.leb_spec (Z.of_nat (length (o_buf ob2))) (Z.of_nat i)); cbn [orb]; [reflexivity|].
      cbn [set_region]. rewrite G1. apply (IH _ (mk_object (o_shape ob2) (o_data ob2) (o_size ob2) (upd (o_buf ob2) (Z.to_nat (Z.of_nat i)) (Some w)))); try lia.
      - cbn [objs]. apply nth_error_upd_same. apply (nth_error_lt _ _ _ _ G1).
      - cbn [o_buf]. rewrite upd_length. assumption. }
    assert (L : nth_error (objs st1) (length (objs st)) = Some (Some ob)) by (cbn [st1 objs]; rewrite nth_error_snoc, Nat.eqb_refl; reflexivity).
    specialize (G vs st1 ob 0%nat L). unfold unwind, bindM, get_obj. rewrite L.
    assert (D : data_of (length (objs st)) ob = PObj (length (objs st))) by reflexivity. rewrite D.
    assert (Q : snd (copy_values vs (PObj (length (objs st))) None 0 st1) = inr MemErr).
    { apply G; try lia. cbn [ob o_buf]. unfold value_init. apply repeat_length. }
    destruct (copy_values vs (PObj (length (objs st))) None 0 st1) as [x y]. cbn [snd] in Q. subst y. reflexivity.
  Qed.
End Props.

(** Concrete cases.  A history over numbers: a small buffer of 3 numbers (with room for 4) is filled from an array,
    copied; the copy is changed; a heap buffer of 6 is made from its size; everything is destroyed. *)
Definition example_history : list (op (V := Z)) :=
  [OFromArray (Buffer (-1) 4) [10; 20; 30] true None; OCopy 0 true None; OWrite 1 2 99; OIterate 0; OIterate 1;
   ONew (Buffer (-1) 4) (mk_size int32 false 6) true; OWrite 2 5 7; OCopy 2 true (Some 3%nat); OBack 2; OSize 2;
   ONew (Buffer (-1) 4) (mk_size int32 false (-1)) true; OAssign 0 1 None;
   ODestroy 1; ODestroy 0; ODestroy 2].
Example C49_example :
  Forall op_ok example_history /\
  (exists s, arun 0 true (fun v => v) example_history [] = Some (s, snd (run 0 true (fun v => v) example_history initial)) /\ forall o, a_live s o = None) /\
  snd (run 0 true (fun v => v) example_history initial) =
    [inl (RObj 0); inl (RObj 1); inl RUnit; inl (RVals [10; 20; 30]); inl (RVals [10; 20; 99]); inl (RObj 2); inl RUnit; inr Thrown;
     inl (RVal 7); inl (RSize 6); inr Thrown; inr Rejected; inl RUnit; inl RUnit; inl RUnit] /\
  heap (fst (run 0 true (fun v => v) example_history initial)) = [Freed; Freed].
Proof.
  split; [|split; [|split]].
  - repeat constructor; cbn; try lia; auto; discriminate.
  - eexists. split; [vm_compute; reflexivity|]. intro o. do 6 (destruct o as [|o]; [reflexivity|]). destruct o; reflexivity.
  - vm_compute. reflexivity.
  - vm_compute. reflexivity.
Qed.

(** C51 is false for numbers in a small buffer: the elements are indeterminate. *)
Theorem C51_small_buffer_refuted : exists (h : list (op (V := Z))), Forall op_ok h /\
  snd (run 0 true (fun v => v) h initial) = [inl (RObj 0); inr Indet].
Proof.
  exists [make_buffer_max 4 (mk_size int32 false 3) true; OFront 0]. split; [|vm_compute; reflexivity].
  repeat constructor; cbn; try lia; auto; discriminate.
Qed.
(** So is copying such a buffer before all elements have been written. *)
Theorem C51_copy_refuted : exists (h : list (op (V := Z))), Forall op_ok h /\
  snd (run 0 true (fun v => v) h initial) = [inl (RObj 0); inl RUnit; inr Indet].
Proof.
  exists [make_buffer_max 4 (mk_size int32 false 3) true; OWrite 0 0 5; OCopy 0 true None]. split; [|vm_compute; reflexivity].
  repeat constructor; cbn; try lia; auto; discriminate.
Qed.
(** C52 is false for the array constructor: three elements are written to a buffer with room for two. *)
Theorem C52_array_ctor_refuted : exists (Mx : Z) (vs : list Z), 0 <= Mx < Z.of_nat (length vs) /\
  snd (run 0 true (fun v => v) [OFromArray (FixedBuffer (-1) Mx) vs true None] initial) = [inr MemErr].
Proof. exists 2, [1; 2; 3]. split; [cbn; lia|reflexivity]. Qed.
Example C50_example :
  step 0 true (fun v => v) (make_buffer_max 4 (mk_size int32 false 5) true) initial =
    (mk_state [Live (repeat (Some 0) 5)] [Some (mk_object (Buffer (-1) 4) (PHeap 0) 5 (repeat None 4))], inl (RObj 0)) /\
  live_blocks (fst (step 0 true (fun v => v) (make_buffer_max 4 (mk_size int32 true 3) true) initial)) = 0%nat /\
  live_blocks (fst (step 0 true (fun v => v) (make_buffer (mk_size int32 false 3) true) initial)) = 1%nat.
Proof. repeat split. Qed.
Example C51_example :
  step 0 true (fun v => v) (OIterate 0) (fst (step 0 true (fun v => v) (make_buffer (mk_size int32 false 3) true) initial)) =
  (fst (step 0 true (fun v => v) (make_buffer (mk_size int32 false 3) true) initial), inl (RVals [0; 0; 0])).
Proof. reflexivity. Qed.
Example C52_example :
  snd (run 0 true (fun v => v) [make_fixed_buffer_max 4 (mk_size int32 false 3) true; OSize 0; make_fixed_buffer_max 4 (mk_size int32 false 5) true;
     OFromArray (FixedBuffer (-1) 2) [1; 2] true None; OIterate 2; OAssignArray 2 [1; 2; 3] None] initial) =
  [inl (RObj 0); inl (RSize 3); inr Violated; inl (RObj 2); inl (RVals [1; 2]); inr Violated] /\
  snd (run 0 true (fun v => v) [OFromArray (FixedBuffer (-1) 2) [1; 2; 3] true None] initial) = [inr MemErr].
Proof. split; reflexivity. Qed.
Print Assumptions C49_value_semantics.
Print Assumptions C49_memory_safe.
Print Assumptions C49_no_leak.
Print Assumptions C49_all_freed.
Print Assumptions C49_no_alias.
Print Assumptions C50_placement.
Print Assumptions C51_initial_elements_partial.
Print Assumptions C51_small_buffer_refuted.
Print Assumptions C51_copy_refuted.
Print Assumptions C52_capacity_partial.
Print Assumptions C52_size_ctor.
Print Assumptions C52_array_ctor_overflows.
Print Assumptions C52_array_ctor_refuted.
