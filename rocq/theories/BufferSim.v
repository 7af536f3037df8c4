(** Buffers, continued: loops over elements, and every operation simulates the specification. *)

From Coq Require Import ZArith Arith Bool Lia List.
From Verif Require Import Base ExpandModel ExpandSpec ExpandProofs RangeSpec RangeProofs BufferModel BufferSpec BufferProofs.
Import ListNotations.
Local Open Scope Z_scope.

Lemma upd_upd : forall A (l : list A) i x y, upd (upd l i x) i y = upd l i y.
Proof. induction l as [|a l IH]; intros i x y; [reflexivity|]. destruct i; cbn; [reflexivity|]. f_equal. apply IH. Qed.
Lemma upd_same : forall A (l : list A) i x, nth_error l i = Some x -> upd l i x = l.
Proof. induction l as [|a l IH]; intros i x H; [reflexivity|]. destruct i; cbn in *; [congruence|]. f_equal. auto. Qed.

Lemma skipn_add : forall A (l : list A) a b, skipn a (skipn b l) = skipn (b + a) l.
Proof. intros A l a b. revert l. induction b as [|b IH]; intro l; [reflexivity|]. destruct l; cbn; [destruct a; reflexivity|apply IH]. Qed.

Section Loops.
  Context {V : Type}.
  Variable v0 : V.
  Variable trivial : bool.
  Variable moved : V -> V.
  Local Notation cell := (option V).
  Notation state := (state (V := V)).
  Notation object := (object (V := V)).
  Notation abuf := (abuf (V := V)).
  Notation astate := (astate (V := V)).

  Definition shift (t : option nat) (i : nat) : option nat :=
    match t with Some k => if Nat.leb i k then Some (k - i)%nat else None | None => None end.
  Lemma shift_0 : forall t, shift t 0 = t.
  Proof. intros [k|]; cbn; [f_equal; lia|reflexivity]. Qed.
  Lemma shift_S : forall t i, shift t (S i) = match shift t i with Some (S k) => Some k | _ => None end.
  Proof.
    intros [k|] i; [|reflexivity]. unfold shift. destruct (Nat.leb_spec (S i) k); destruct (Nat.leb_spec i k); try lia; auto.
    - replace (k - i)%nat with (S (k - S i)) by lia. reflexivity.
    - replace (k - i)%nat with 0%nat by lia. reflexivity.
  Qed.
  Lemma throws_shift : forall t i, throws t i = match shift t i with Some O => true | _ => false end.
  Proof.
    intros [k|] i; [|reflexivity]. unfold throws, shift. destruct (Nat.eqb_spec k i); destruct (Nat.leb_spec i k); try lia; auto.
    - subst. rewrite Nat.sub_diag. reflexivity.
    - destruct (k - i)%nat eqn:E; [lia|reflexivity].
  Qed.

  Lemma first_bad_nil : forall t, first_bad (V := V) [] t = None.
  Proof. intros [k|]; reflexivity. Qed.
  Lemma first_bad_none : forall (cs : list cell) t, first_bad (None :: cs) t = Some (0%nat, Indet).
  Proof. intros cs [k|]; unfold first_bad; cbn [first_indet]; [|reflexivity]. destruct (k <? length (None :: cs))%nat; reflexivity. Qed.
  Lemma first_bad_some : forall v (cs : list cell) t, first_bad (Some v :: cs) t =
    match t with Some O => Some (0%nat, Thrown)
    | _ => option_map (fun ke => (S (fst ke), snd ke)) (first_bad cs (match t with Some (S k) => Some k | _ => None end)) end.
  Proof.
    intros v cs [[|k]|]; unfold first_bad; cbn [first_indet length].
    - cbn. destruct (first_indet cs); reflexivity.
    - change (S k <? S (length cs))%nat with (k <? length cs)%nat. destruct (k <? length cs)%nat; destruct (first_indet cs) as [i|]; cbn [option_map]; auto.
      change (S i <=? S k)%nat with (i <=? k)%nat. destruct (i <=? k)%nat; reflexivity.
    - destruct (first_indet cs); reflexivity.
  Qed.

  Definition good (cs : list cell) (t : option nat) : nat := match first_bad cs t with Some (k, _) => k | None => length cs end.
  Definition bad (cs : list cell) (t : option nat) : unit + fault := match first_bad cs t with Some (_, e) => inr e | None => inl tt end.

  Lemma copy_cells_spec : forall cs t i, copy_cells cs t i = (firstn (good cs (shift t i)) cs, match first_bad cs (shift t i) with Some (_, e) => Some e | None => None end).
  Proof.
    unfold good. induction cs as [|[v|] cs IH]; intros t i; cbn [copy_cells].
    - rewrite first_bad_nil. reflexivity.
    - rewrite throws_shift, first_bad_some. destruct (shift t i) as [[|k]|] eqn:E; [reflexivity|..].
      + rewrite IH, shift_S, E. destruct (first_bad cs (Some k)) as [[j e]|]; reflexivity.
      + rewrite IH, shift_S, E. destruct (first_bad cs None) as [[j e]|]; reflexivity.
    - rewrite first_bad_none. reflexivity.
  Qed.

  Fixpoint write_from (cs : list cell) (i : nat) (l : list cell) : list cell :=
    match l with [] => cs | x :: r => write_from (upd cs i x) (S i) r end.
  Lemma write_from_spec : forall l cs i, (i + length l <= length cs)%nat -> write_from cs i l = firstn i cs ++ l ++ skipn (i + length l) cs.
  Proof.
    induction l as [|x l IH]; intros cs i H; cbn [write_from length] in *.
    - rewrite Nat.add_0_r. symmetry. apply firstn_skipn.
    - rewrite IH by (rewrite upd_length; lia). rewrite upd_split by lia.
      assert (L : length (firstn i cs) = i) by (rewrite firstn_length; lia).
      assert (F : firstn (S i) (firstn i cs ++ x :: skipn (S i) cs) = firstn i cs ++ [x]).
      { rewrite firstn_app, L. replace (S i - i)%nat with 1%nat by lia. rewrite firstn_all2 by lia. reflexivity. }
      rewrite F, <- app_assoc. cbn [app]. do 3 f_equal.
      rewrite skipn_app, L. replace (S i + length l - i)%nat with (S (length l)) by lia.
      rewrite skipn_all2 by (rewrite L; lia). cbn [app].
      change (skipn (S (length l)) (x :: skipn (S i) cs)) with (skipn (length l) (skipn (S i) cs)). rewrite skipn_add. f_equal. lia.
  Qed.
  Lemma write_from_0 : forall l cs, (length l <= length cs)%nat -> write_from cs 0 l = overwrite cs l.
  Proof. intros l cs H. rewrite write_from_spec by lia. reflexivity. Qed.
  Lemma write_from_length : forall l cs i, length (write_from cs i l) = length cs.
  Proof. induction l as [|x l IH]; intros cs i; cbn; [reflexivity|]. rewrite IH. apply upd_length. Qed.

  Lemma same_ptr_live : forall st st' o ob (s' : astate) b', same_ptrs st st' -> nth_error (objs st) o = Some (Some ob) ->
    R st' s' -> nth_error s' o = Some (Some b') ->
    exists ob', nth_error (objs st') o = Some (Some ob') /\ data_of o ob' = data_of o ob /\ obj_rel (heap st') o ob' b'.
  Proof.
    intros st st' o ob s' b' [_ H] H1 HR H2. destruct (R_abs _ _ _ _ HR H2) as [ob' [E1 E2]]. exists ob'. split; [|split]; auto.
    specialize (H o). rewrite H1, E1 in H. exact H.
  Qed.

  Lemma copy_values_spec : forall vs st s o ob b i t, R st s -> nth_error (objs st) o = Some (Some ob) -> nth_error s o = Some (Some b) ->
    (i + length vs <= length (a_cells b))%nat ->
    exists st', copy_values vs (data_of o ob) t i st = (st', bad (map Some vs) (shift t i)) /\
      R st' (upd s o (Some (with_cells b (write_from (a_cells b) i (firstn (good (map Some vs) (shift t i)) (map Some vs)))))) /\
      same_ptrs st st'.
  Proof.
    unfold bad, good. induction vs as [|v vs IH]; intros st s o ob b i t HR H1 H2 L; cbn [copy_values map] in *.
    - rewrite first_bad_nil. exists st. split; [reflexivity|]. cbn. split; [|apply same_ptrs_refl].
      rewrite upd_same; auto. rewrite H2. destruct b; reflexivity.
    - rewrite throws_shift, first_bad_some. cbn [length] in L. destruct (shift t i) as [[|k]|] eqn:E.
      + exists st. split; [reflexivity|]. cbn. split; [|apply same_ptrs_refl].
        rewrite upd_same; auto. rewrite H2. destruct b; reflexivity.
      + destruct (store_spec st s o ob b (Z.of_nat i) v HR H1 H2) as (st1 & S1 & S2 & S3); [lia|].
        rewrite Nat2Z.id in S2. unfold bindM. rewrite S1.
        set (b1 := with_cells b (upd (a_cells b) i (Some v))) in *.
        assert (H2' : nth_error (upd s o (Some b1)) o = Some (Some b1)) by (apply nth_error_upd_same; apply (nth_error_lt _ _ _ _ H2)).
        destruct (same_ptr_live _ _ _ _ _ _ S3 H1 S2 H2') as (ob1 & G1 & G2 & G3).
        destruct (IH st1 _ o ob1 b1 (S i) t S2 G1 H2') as (st2 & I1 & I2 & I3).
        { cbn [b1 with_cells a_cells]. rewrite upd_length. lia. }
        exists st2. rewrite G2 in I1. rewrite I1. rewrite shift_S, E in *. split; [|split].
        * destruct (first_bad (map Some vs) (Some k)) as [[j e]|]; reflexivity.
        * rewrite upd_upd in I2. destruct (first_bad (map Some vs) (Some k)) as [[j e]|]; exact I2.
        * eapply same_ptrs_trans; eauto.
      + destruct (store_spec st s o ob b (Z.of_nat i) v HR H1 H2) as (st1 & S1 & S2 & S3); [lia|].
        rewrite Nat2Z.id in S2. unfold bindM. rewrite S1.
        set (b1 := with_cells b (upd (a_cells b) i (Some v))) in *.
        assert (H2' : nth_error (upd s o (Some b1)) o = Some (Some b1)) by (apply nth_error_upd_same; apply (nth_error_lt _ _ _ _ H2)).
        destruct (same_ptr_live _ _ _ _ _ _ S3 H1 S2 H2') as (ob1 & G1 & G2 & G3).
        destruct (IH st1 _ o ob1 b1 (S i) t S2 G1 H2') as (st2 & I1 & I2 & I3).
        { cbn [b1 with_cells a_cells]. rewrite upd_length. lia. }
        exists st2. rewrite G2 in I1. rewrite I1. rewrite shift_S, E in *. split; [|split].
        * destruct (first_bad (map Some vs) None) as [[j e]|]; reflexivity.
        * rewrite upd_upd in I2. destruct (first_bad (map Some vs) None) as [[j e]|]; exact I2.
        * eapply same_ptrs_trans; eauto.
  Qed.

  Lemma skipn_cons_nth : forall A (l : list A) i, (i < length l)%nat -> exists x, nth_error l i = Some x /\ skipn i l = x :: skipn (S i) l.
  Proof.
    induction l as [|a l IH]; intros i H; cbn in H; [lia|]. destruct i; cbn; [eauto|]. apply IH. lia.
  Qed.

  Lemma copy_elements_spec : forall n st s src obs bs dst obd bd i t, R st s -> src <> dst ->
    nth_error (objs st) src = Some (Some obs) -> nth_error s src = Some (Some bs) ->
    nth_error (objs st) dst = Some (Some obd) -> nth_error s dst = Some (Some bd) ->
    (i + n <= length (a_cells bs))%nat -> (i + n <= length (a_cells bd))%nat ->
    let part := firstn n (skipn i (a_cells bs)) in
    exists st', copy_elements (data_of src obs) (data_of dst obd) t i n st = (st', bad part (shift t i)) /\
      R st' (upd s dst (Some (with_cells bd (write_from (a_cells bd) i (firstn (good part (shift t i)) part))))) /\
      same_ptrs st st'.
  Proof.
    unfold bad, good. induction n as [|n IH]; intros st s src obs bs dst obd bd i t HR N H1 H2 H3 H4 L1 L2; cbn [copy_elements firstn]; cbn zeta.
    - rewrite first_bad_nil. exists st. split; [reflexivity|]. cbn. split; [|apply same_ptrs_refl].
      rewrite upd_same; auto. rewrite H4. destruct bd; reflexivity.
    - destruct (skipn_cons_nth _ (a_cells bs) i) as (x & X1 & X2); [lia|]. rewrite X2. cbn [firstn].
      assert (H5 : obj_rel (heap st) src obs bs). { destruct (R_live _ _ HR src obs H1) as [b' [E1 E2]]. rewrite H2 in E1. injection E1 as <-. exact E2. }
      unfold bindM at 1. rewrite (load_spec st s src obs bs (Z.of_nat i) HR H1 H2 H5) by lia. rewrite Nat2Z.id, X1.
      destruct x as [v|].
      2:{ rewrite first_bad_none. exists st. split; [reflexivity|]. cbn. split; [|apply same_ptrs_refl].
          rewrite upd_same; auto. rewrite H4. destruct bd; reflexivity. }
      rewrite throws_shift, first_bad_some.
      assert (K : forall t', shift t (S i) = t' ->
        exists st', bindM (store (data_of dst obd) (Z.of_nat i) v) (fun _ => copy_elements (data_of src obs) (data_of dst obd) t (S i) n) st =
          (st', match option_map (fun ke => (S (fst ke), snd ke)) (first_bad (firstn n (skipn (S i) (a_cells bs))) t') with Some (_, e) => inr e | None => inl tt end) /\
          R st' (upd s dst (Some (with_cells bd (write_from (a_cells bd) i (firstn match option_map (fun ke => (S (fst ke), snd ke)) (first_bad (firstn n (skipn (S i) (a_cells bs))) t') with
              Some (k, _) => k | None => length (Some v :: firstn n (skipn (S i) (a_cells bs))) end (Some v :: firstn n (skipn (S i) (a_cells bs)))))))) /\
          same_ptrs st st').
      { intros t' Et. destruct (store_spec st s dst obd bd (Z.of_nat i) v HR H3 H4) as (st1 & S1 & S2 & S3); [lia|].
        rewrite Nat2Z.id in S2. unfold bindM. rewrite S1.
        set (b1 := with_cells bd (upd (a_cells bd) i (Some v))) in *.
        assert (H4' : nth_error (upd s dst (Some b1)) dst = Some (Some b1)) by (apply nth_error_upd_same; apply (nth_error_lt _ _ _ _ H4)).
        assert (H2' : nth_error (upd s dst (Some b1)) src = Some (Some bs)) by (rewrite nth_error_upd_other; auto).
        destruct (same_ptr_live _ _ _ _ _ _ S3 H3 S2 H4') as (obd1 & G1 & G2 & _).
        destruct (same_ptr_live _ _ _ _ _ _ S3 H1 S2 H2') as (obs1 & G3 & G4 & _).
        destruct (IH st1 _ src obs1 bs dst obd1 b1 (S i) t S2 N G3 H2' G1 H4') as (st2 & I1 & I2 & I3); [lia| |].
        { cbn [b1 with_cells a_cells]. rewrite upd_length. lia. }
        exists st2. rewrite G2, G4, Et in I1. rewrite I1. rewrite Et in I2. rewrite upd_upd in I2. split; [|split].
        * destruct (first_bad (firstn n (skipn (S i) (a_cells bs))) t') as [[j e]|]; reflexivity.
        * destruct (first_bad (firstn n (skipn (S i) (a_cells bs))) t') as [[j e]|]; exact I2.
        * eapply same_ptrs_trans; eauto. }
      pose proof (shift_S t i) as Es. destruct (shift t i) as [[|k]|] eqn:E.
      + exists st. split; [reflexivity|]. cbn. split; [|apply same_ptrs_refl].
        rewrite upd_same; auto. rewrite H4. destruct bd; reflexivity.
      + exact (K _ Es).
      + exact (K _ Es).
  Qed.

  Definition vals (cs : list cell) : list V := flat_map (fun c => match c with Some v => [v] | None => [] end) cs.
  Lemma load_all_spec : forall n st s o ob b i, R st s -> nth_error (objs st) o = Some (Some ob) -> nth_error s o = Some (Some b) ->
    obj_rel (heap st) o ob b -> (i + n <= length (a_cells b))%nat ->
    load_all (data_of o ob) i n st = (st, match first_bad (firstn n (skipn i (a_cells b))) None with Some (_, e) => inr e | None => inl (vals (firstn n (skipn i (a_cells b)))) end).
  Proof.
    induction n as [|n IH]; intros st s o ob b i HR H1 H2 H3 L; cbn [load_all firstn].
    - rewrite first_bad_nil. reflexivity.
    - destruct (skipn_cons_nth _ (a_cells b) i) as (x & X1 & X2); [lia|]. rewrite X2. cbn [firstn].
      unfold bindM at 1. rewrite (load_spec st s o ob b (Z.of_nat i) HR H1 H2 H3) by lia. rewrite Nat2Z.id, X1.
      destruct x as [v|]; [|rewrite first_bad_none; reflexivity].
      rewrite first_bad_some. unfold bindM, ret. rewrite (IH st s o ob b (S i) HR H1 H2 H3) by lia.
      destruct (first_bad (firstn n (skipn (S i) (a_cells b))) None) as [[j e]|]; reflexivity.
  Qed.
End Loops.

Section Step.
  Context {V : Type}.
  Variable v0 : V.
  Variable trivial : bool.
  Variable moved : V -> V.
  Local Notation cell := (option V).
  Notation state := (state (V := V)).
  Notation object := (object (V := V)).
  Notation abuf := (abuf (V := V)).
  Notation astate := (astate (V := V)).

  Definition wf_buf (b : abuf) : Prop :=
    sensible (a_shape b) /\ Z.of_nat (length (a_cells b)) = capacity (a_shape b) (Z.of_nat (a_size b)) /\
    Z.of_nat (a_size b) <= Z.of_nat (length (a_cells b)) < 2 ^ 63 /\
    (shape_extent (a_shape b) <> -1 -> Z.of_nat (a_size b) = shape_extent (a_shape b)).
  Definition awf (s : astate) : Prop := Forall (fun ob => match ob with Some b => wf_buf b | None => True end) s.

  Lemma Forall_upd : forall A (P : A -> Prop) l i x, Forall P l -> P x -> Forall P (upd l i x).
  Proof. intros A P. induction l as [|a l IH]; intros i x H Hx; [constructor|]. inversion H; subst. destruct i; cbn; constructor; auto. Qed.
  Lemma Forall_snoc : forall A (P : A -> Prop) l x, Forall P l -> P x -> Forall P (l ++ [x]).
  Proof. intros A P l x H Hx. apply Forall_app. split; auto. Qed.
  Lemma awf_live : forall s o b, awf s -> nth_error s o = Some (Some b) -> wf_buf b.
  Proof. intros s o b H E. apply nth_error_In in E. exact (proj1 (Forall_forall _ _) H _ E). Qed.
  Lemma wf_cells : forall b cs, wf_buf b -> length cs = length (a_cells b) -> wf_buf (with_cells b cs).
  Proof. intros b cs (H1 & H2 & H3 & H4) L. split; [|split; [|split]]; cbn [with_cells a_shape a_size a_cells]; try rewrite L; auto. Qed.

  (** The base class constructor gives what the specification asks for. *)
  Lemma base_buf_spec : forall sh n, sensible sh -> (shape_extent sh = -1 \/ n = shape_extent sh) ->
    base_buf v0 trivial sh n = mk_abuf sh (Z.to_nat n) (new_cells v0 trivial sh n).
  Proof.
    intros sh n H Hn. pose proof (layout_cases sh H) as L. unfold base_buf, new_cells. destruct (layout_of sh) as [E|Mx|B|] eqn:LE.
    - destruct L as (L1 & L2 & L3). destruct Hn as [Hn|Hn]; [lia|]. rewrite Hn, L1. clear Hn. f_equal.
      assert (C : capacity sh E = E) by (destruct sh as [E' Mx|E' Mx]; cbn [shape_extent capacity new_cell] in *; [reflexivity|]; subst E'; destruct E as [|p|p]; try reflexivity; lia).
      rewrite C. f_equal. destruct sh as [E' Mx|E' Mx]; cbn [shape_extent capacity new_cell] in *; [|reflexivity]. subst E'. destruct E as [|p|p]; try reflexivity. lia.
    - destruct L as (-> & L2). reflexivity.
    - destruct L as (-> & L2). reflexivity.
    - destruct L as ((E & Mx & ->) & _). reflexivity.
  Qed.

  Lemma fails_inv : forall sh n avail, heap_fails sh n avail = false -> uses_heap sh n = true -> n < 2 ^ 63.
  Proof.
    intros sh n avail H U. unfold heap_fails in H. rewrite U in H. cbn [andb] in H. apply negb_false_iff, andb_true_iff in H.
    apply Z.ltb_lt. apply H.
  Qed.

  Lemma new_wf : forall sh n avail, sensible sh -> 0 <= n -> heap_fails sh n avail = false ->
    (if shape_extent sh =? -1 then match sh with FixedBuffer _ Mx => n <= Mx | _ => True end else n = shape_extent sh) ->
    wf_buf (mk_abuf sh (Z.to_nat n) (new_cells v0 trivial sh n)).
  Proof.
    intros sh n avail H Hn Hh Hx. unfold wf_buf. cbn [a_shape a_size a_cells]. unfold new_cells. rewrite repeat_length.
    pose proof (layout_cases sh H) as L. pose proof (fails_inv _ _ _ Hh) as Hi. unfold uses_heap in Hi.
    destruct (layout_of sh) as [E|Mx|B|] eqn:LE.
    - destruct L as (L1 & L2 & L3). destruct (Z.eqb_spec (shape_extent sh) (-1)); [lia|]. subst E n.
      assert (C : capacity sh (shape_extent sh) = shape_extent sh).
      { destruct sh as [E' Mx|E' Mx]; cbn [shape_extent capacity new_cell] in *; [reflexivity|]. destruct E' as [|p|p]; try reflexivity; lia. }
      rewrite !Z2Nat.id by lia. rewrite !C. repeat split; auto; try lia.
    - destruct L as (-> & L2). cbn in *. split; [lia|]. rewrite !Z2Nat.id by lia. split; [reflexivity|]. split; [lia|]. lia.
    - destruct L as (-> & L2). cbn [shape_extent capacity sensible heap_limit] in *. change (-1 =? -1) with true in *. cbn iota in *.
      rewrite !Z2Nat.id by lia. split; [lia|]. split; [reflexivity|]. split; [|lia]. split; [lia|].
      destruct (Z.ltb_spec (Z.max 0 B) n); [|lia]. apply Hi. reflexivity.
    - destruct L as ((E & Mx & ->) & L2 & L3). cbn [shape_extent capacity] in *. rewrite !Z2Nat.id by lia. rewrite L2 in Hi.
      assert (n < 2 ^ 63). { destruct (Z.ltb_spec 0 n); [|lia]. apply Hi. reflexivity. }
      split; auto. split; [reflexivity|]. split; [lia|]. intro. destruct (Z.eqb_spec E (-1)); [lia|assumption].
  Qed.

  Lemma never_heap_layout : forall sh, sensible sh ->
    never_heap sh = match layout_of sh with LStatic _ | LFixed _ => true | _ => false end.
  Proof.
    intros sh H. pose proof (layout_cases sh H) as L. unfold never_heap. destruct (layout_of sh).
    - destruct L as (_ & _ & ->). reflexivity.
    - destruct L as (-> & _). reflexivity.
    - destruct L as (-> & _). reflexivity.
    - destruct L as (_ & -> & _). reflexivity.
  Qed.
  Lemma never_heap_uses : forall sh n, never_heap sh = true -> uses_heap sh n = false.
  Proof. intros sh n. unfold never_heap, uses_heap. destruct (heap_limit sh); [discriminate|reflexivity]. Qed.

  Lemma construct_base_objs : forall sh n avail (st : state), exists x, objs (fst (construct_base v0 trivial sh n avail st)) = objs st ++ [x].
  Proof.
    intros sh n avail st. unfold construct_base, bindM, next_obj, unwind, new_array, push_obj, ret, fail.
    destruct (avail && (n <? 2 ^ 63)); destruct (n >? 0); destruct (layout_of sh) as [E|Mx|B|]; try (destruct (n <=? cast size_ty B)); cbn; eauto.
  Qed.

  Lemma first_bad_map : forall (vs : list V) t, exists r, first_bad (map Some vs) t = r /\
    match r with None => True | Some (_, e) => e = Thrown end.
  Proof.
    intros vs t. eexists. split; [reflexivity|]. unfold first_bad.
    assert (E : first_indet (map Some vs) = None) by (induction vs; cbn; [reflexivity|rewrite IHvs; reflexivity]).
    rewrite E. destruct t as [k|]; auto. destruct (k <? length (map Some vs))%nat; auto.
  Qed.
  Lemma first_bad_fault : forall (cs : list cell) t k e, first_bad cs t = Some (k, e) -> (e = Thrown \/ e = Indet) /\ (k < length cs)%nat.
  Proof.
    induction cs as [|[v|] cs IH]; intros t k e H.
    - rewrite first_bad_nil in H. discriminate.
    - rewrite first_bad_some in H. cbn [length].
      destruct t as [[|j]|]; [injection H as <- <-; split; [auto|lia]|..];
        destruct (first_bad cs _) as [[k' e']|] eqn:E; try discriminate; cbn in H; injection H as <- <-; apply IH in E; destruct E; split; auto; lia.
    - rewrite first_bad_none in H. injection H as <- <-. cbn. split; [auto|lia].
  Qed.
  Lemma good_le : forall (cs : list cell) t, (good cs t <= length cs)%nat.
  Proof. intros cs t. unfold good. destruct (first_bad cs t) as [[k e]|] eqn:E; [|lia]. apply first_bad_fault in E. lia. Qed.

  Definition Sim (st : state) (c : op) (s' : astate) (r : result + fault) : Prop :=
    exists st', step v0 trivial moved c st = (st', r) /\ (r <> inr Indet -> R st' s').

  Lemma live_snoc : forall (s : astate) x, nth_error (s ++ [x]) (length s) = Some x.
  Proof. intros. rewrite nth_error_snoc, Nat.eqb_refl. reflexivity. Qed.

  Lemma size_ctor_spec : forall sh a, proper_size a ->
    size_ctor_ok sh a = negb (sa_const a && negb (sa_value a =? -1) &&
       ((negb (shape_extent sh =? -1) && negb (sa_value a =? shape_extent sh)) || match sh with FixedBuffer _ Mx => Mx <? sa_value a | _ => false end)).
  Proof.
    intros sh a H. pose proof (proper_range a H) as P. destruct H as (_ & _ & H). unfold size_ctor_ok, buffer_extent_from_constval, dynamic_extent.
    destruct (sa_const a).
    - rewrite cast_id; [|cbn; lia|apply in_ptrdiff; unfold representable; specialize (H eq_refl); lia].
      rewrite (Z.eqb_sym (shape_extent sh) (sa_value a)).
      destruct (sa_value a =? -1), (sa_value a =? shape_extent sh), (shape_extent sh =? -1), sh as [E Mx|E Mx]; cbn; try reflexivity;
        destruct (Z.leb_spec (sa_value a) Mx); destruct (Z.ltb_spec Mx (sa_value a)); try lia; reflexivity.
    - cbn. rewrite orb_true_r. destruct sh; reflexivity.
  Qed.

  Lemma check_spec : forall sh a, sensible sh -> proper_size a ->
    check_extents sh a = (if shape_extent sh =? -1 then (0 <=? sa_value a) && match sh with FixedBuffer _ Mx => sa_value a <=? Mx | _ => true end
                          else sa_value a =? shape_extent sh).
  Proof.
    intros sh a H (B & I & _). unfold check_extents, check_buffer_extents, check_fixed_buffer_extents, dynamic_extent.
    assert (N : negb (int_lt (sa_type a) int32 (sa_value a) 0) = (0 <=? sa_value a)).
    { rewrite int_lt_exact by (apply arg_vs_zero; auto). destruct (Z.ltb_spec (sa_value a) 0); destruct (Z.leb_spec 0 (sa_value a)); try lia; reflexivity. }
    destruct sh as [E Mx|E Mx]; cbn [shape_extent sensible] in *; destruct (Z.eqb_spec E (-1)).
    - rewrite N, andb_true_r. reflexivity.
    - apply int_eq_exact. apply arg_vs_nonneg; auto. lia.
    - rewrite N. f_equal. rewrite int_lt_exact by (apply arg_vs_nonneg; auto; lia).
      destruct (Z.ltb_spec Mx (sa_value a)); destruct (Z.leb_spec (sa_value a) Mx); try lia; reflexivity.
    - apply int_eq_exact. apply arg_vs_nonneg; auto. lia.
  Qed.

  Lemma sim_new : forall st s sh a avail, R st s -> awf s -> sensible sh -> proper_size a ->
    let '(s', r) := a_add s (a_construct v0 trivial sh a avail) in Sim st (ONew sh a avail) s' r /\ awf s' /\ r <> inr MemErr.
  Proof.
    intros st s sh a avail HR Hw Hs Ha. pose proof (proper_range a Ha) as P. unfold Sim, step, as_res, construct, a_construct.
    rewrite shape_ok_sensible, (size_ctor_spec sh a Ha), (check_spec sh a Hs Ha) by auto. cbn [andb].
    destruct (sa_const a && negb (sa_value a =? -1) && _); cbn [negb].
    { cbn [a_add]. split; [|split; [auto|discriminate]]. exists st. split; [reflexivity|auto]. }
    rewrite cast_size_mod. pose proof (Z.mod_pos_bound (sa_value a) (2 ^ 64) ltac:(lia)) as Hm.
    destruct (construct_base_spec v0 trivial st s sh (sa_value a mod 2 ^ 64) avail HR Hs Hm) as (st1 & R1 & E1).
    unfold bindM at 1 2. rewrite E1. clear E1. destruct (heap_fails sh (sa_value a mod 2 ^ 64) avail) eqn:HF.
    { cbn [a_add]. split; [|split; [apply Forall_snoc; auto|discriminate]]. eexists. split; [reflexivity|auto]. }
    destruct (if shape_extent sh =? -1 then _ else _) eqn:C.
    - cbn [a_add]. assert (N : 0 <= sa_value a /\ (if shape_extent sh =? -1 then match sh with FixedBuffer _ Mx => sa_value a <= Mx | _ => True end else sa_value a = shape_extent sh)).
      { destruct (Z.eqb_spec (shape_extent sh) (-1)) as [X|X].
        - apply andb_true_iff in C. destruct C as [C1 C2]. apply Z.leb_le in C1. split; auto. destruct sh; auto. apply Z.leb_le. auto.
        - apply Z.eqb_eq in C. split; auto. destruct sh; cbn in *; lia. }
      destruct N as [N1 N2]. rewrite Z.mod_small in * by lia.
      assert (X : shape_extent sh = -1 \/ sa_value a = shape_extent sh) by (destruct (Z.eqb_spec (shape_extent sh) (-1)); auto).
      rewrite (base_buf_spec sh _ Hs X) in R1.
      split; [|split; [|discriminate]].
      + unfold unwind, ret. eexists. split; [reflexivity|auto].
      + apply Forall_snoc; auto. apply (new_wf sh _ avail); auto.
    - cbn [a_add]. split; [|split; [apply Forall_snoc; auto|discriminate]].
      destruct (destroy_spec st1 _ (length s) _ R1 (live_snoc _ _)) as (st2 & E2 & R2). rewrite upd_snoc in R2.
      exists st2. split; [|auto]. unfold unwind, fail, bindM. rewrite E2. reflexivity.
  Qed.

  Lemma sim_from_array : forall st s sh vs avail t, R st s -> awf s -> op_ok (OFromArray sh vs avail t) ->
    let '(s', r) := a_add s (a_from_array v0 trivial sh vs avail t) in Sim st (OFromArray sh vs avail t) s' r /\ awf s' /\ r <> inr MemErr.
  Proof.
    intros st s sh vs avail t HR Hw (Hs & Hl & Hf). unfold Sim, step, as_res, construct_from_array, a_from_array, dynamic_extent.
    set (n := Z.of_nat (length vs)) in *. rewrite shape_ok_sensible by auto. cbn [andb].
    destruct (Z.eqb_spec n 0); destruct (Z.ltb_spec 0 n); try lia; cbn [orb andb].
    { cbn [a_add]. split; [|split; [auto|discriminate]]. exists st. split; [reflexivity|auto]. }
    assert (D : ((shape_extent sh =? -1) || (n =? shape_extent sh)) = negb (negb (shape_extent sh =? -1) && negb (n =? shape_extent sh))).
    { destruct (shape_extent sh =? -1), (n =? shape_extent sh); reflexivity. }
    rewrite D. destruct (negb (shape_extent sh =? -1) && negb (n =? shape_extent sh)) eqn:X; cbn [negb].
    { cbn [a_add]. split; [|split; [auto|discriminate]]. exists st. split; [reflexivity|auto]. }
    assert (X' : shape_extent sh = -1 \/ n = shape_extent sh).
    { destruct (Z.eqb_spec (shape_extent sh) (-1)); auto. destruct (Z.eqb_spec n (shape_extent sh)); auto. discriminate. }
    rewrite cast_size by lia.
    destruct (construct_base_spec v0 trivial st s sh n avail HR Hs ltac:(lia)) as (st1 & R1 & E1).
    unfold bindM at 1 2. rewrite E1. clear E1. destruct (heap_fails sh n avail) eqn:HF.
    { cbn [a_add]. split; [|split; [apply Forall_snoc; auto|discriminate]]. eexists. split; [reflexivity|auto]. }
    assert (N2 : if shape_extent sh =? -1 then match sh with FixedBuffer _ Mx => n <= Mx | _ => True end else n = shape_extent sh).
    { destruct (Z.eqb_spec (shape_extent sh) (-1)) as [Y|Y].
      - destruct sh as [E Mx|E Mx]; auto. cbn in Y. subst E. exact Hf.
      - destruct X'; [contradiction|auto]. }
    assert (N3 : match sh with FixedBuffer _ Mx => Mx <? n | _ => false end = false).
    { destruct sh as [E Mx|E Mx]; auto. cbn in *. apply Z.ltb_ge. destruct (Z.eqb_spec E (-1)); auto. lia. }
    rewrite N3. rewrite (base_buf_spec sh _ Hs X') in R1. unfold n in R1. rewrite Nat2Z.id in R1. fold n in R1.
    set (b := mk_abuf sh (length vs) (new_cells v0 trivial sh n)) in *.
    assert (Wb : wf_buf b). { pose proof (new_wf sh n avail Hs ltac:(lia) HF N2) as W. unfold n in W at 1. rewrite Nat2Z.id in W. exact W. }
    assert (Lb : (length vs <= length (a_cells b))%nat). { destruct Wb as (_ & _ & W & _). cbn [a_size b] in W. lia. }
    destruct (R_abs _ _ _ _ R1 (live_snoc _ _)) as (ob & G1 & G2).
    destruct (copy_values_spec vs st1 _ (length s) ob b 0 t R1 G1 (live_snoc _ _) ltac:(lia)) as (st2 & C1 & C2 & C3).
    rewrite shift_0 in *. rewrite upd_snoc in C2.
    unfold unwind, bindM, get_obj. rewrite G1. rewrite C1. unfold bad, good in *.
    destruct (first_bad_map vs t) as (r & B1 & B2). rewrite B1 in *. destruct r as [[k e]|].
    - subst e. cbn [a_add]. destruct (destroy_spec st2 _ (length s) _ C2 (live_snoc _ _)) as (st3 & E3 & R3). rewrite E3. rewrite upd_snoc in R3.
      split; [|split; [apply Forall_snoc; auto|discriminate]]. exists st3. split; [reflexivity|auto].
    - cbn [a_add]. rewrite firstn_all2 in C2 by lia. rewrite write_from_0 in C2 by (rewrite map_length; lia).
      unfold overwrite in C2. rewrite map_length in C2. split; [|split; [|discriminate]].
      + exists st2. split; [reflexivity|]. intros _. exact C2.
      + apply Forall_snoc; auto. apply (wf_cells b (map Some vs ++ skipn (length vs) (new_cells v0 trivial sh n)) Wb).
        rewrite app_length, map_length, skipn_length. cbn [b a_cells] in *. lia.
  Qed.

  Lemma live_obj : forall (st : state) (s : astate) o (b : abuf), R st s -> a_live s o = Some b ->
    exists ob, nth_error s o = Some (Some b) /\ nth_error (objs st) o = Some (Some ob) /\ obj_rel (heap st) o ob b.
  Proof. intros st s o b HR H. apply live_spec in H. destruct (R_abs _ _ _ _ HR H) as (ob & H1 & H2). eauto. Qed.

  Lemma wf_not_fails : forall (b : abuf) avail, never_heap (a_shape b) = true -> heap_fails (a_shape b) (Z.of_nat (a_size b)) avail = false.
  Proof. intros b avail H. unfold heap_fails. rewrite never_heap_uses; auto. Qed.

  Lemma rel_static : forall h o ob (b : abuf) cs cs' sh', obj_rel h o ob b -> never_heap (a_shape b) = true -> sh' = a_shape b ->
    cs = cs' -> forall p, obj_rel h o (mk_object sh' p (o_size ob) cs) (with_cells b cs').
  Proof.
    intros h o ob b cs cs' sh' (S1 & S2 & S3 & S4) N -> -> p. rewrite never_heap_layout in N by auto.
    split; [|split; [|split]]; auto.
    - unfold size_of in *. cbn [o_shape with_cells a_shape a_size o_size]. rewrite S1 in S3. exact S3.
    - cbn [with_cells a_shape a_size a_cells o_buf]. destruct (layout_of (a_shape b)); try discriminate; reflexivity.
  Qed.
  Lemma static_buf : forall h o ob (b : abuf), obj_rel h o ob b -> never_heap (a_shape b) = true -> o_buf ob = a_cells b.
  Proof. intros h o ob b (S1 & S2 & S3 & S4) N. rewrite never_heap_layout in N by auto. destruct (layout_of (a_shape b)); try discriminate; assumption. Qed.
  Lemma static_data : forall o ob sh, o_shape ob = sh -> sensible sh -> never_heap sh = true -> data_of (V := V) o ob = PObj o.
  Proof. intros o ob sh E S N. rewrite never_heap_layout in N by auto. unfold data_of. rewrite E. destruct (layout_of sh); try discriminate; reflexivity. Qed.
  Lemma with_same : forall b : abuf, with_cells b (a_cells b) = b.
  Proof. intros []. reflexivity. Qed.

  Lemma sim_copy : forall st s src b avail t, R st s -> awf s -> a_live s src = Some b ->
    let '(s', r) := a_add s (a_copy b avail t) in
    (exists st', as_res RObj (copy_construct v0 trivial src avail t) st = (st', r) /\ (r <> inr Indet -> R st' s')) /\ awf s' /\ r <> inr MemErr.
  Proof.
    intros st s src b avail t HR Hw Hb. destruct (live_obj _ _ _ _ HR Hb) as (ob & H2 & H1 & H3).
    pose proof (awf_live _ _ _ Hw H2) as Wb. destruct H3 as (S1 & S2 & S3 & S4).
    unfold as_res, copy_construct, a_copy. unfold bindM at 1 2. unfold get_obj at 1. rewrite H1. rewrite S1.
    pose proof (never_heap_layout _ S2) as NL. pose proof (static_buf _ _ _ _ (conj S1 (conj S2 (conj S3 S4)))) as SB.
    assert (PLAIN : never_heap (a_shape b) = true ->
      let '(s', r) := a_add s (if heap_fails (a_shape b) (Z.of_nat (a_size b)) avail then inr Thrown
                               else match first_bad (a_cells b) t with Some (_, e) => inr e | None => inl b end) in
      (exists st', (let (st', s0) := match copy_cells (o_buf ob) t 0 with
                                     | (cs, None) => push_obj (Some (mk_object (a_shape b) (o_data ob) (o_size ob) cs))
                                     | (_, Some e) => bindM (push_obj None) (fun _ => fail e) end st in
                    match s0 with inl a => ret (RObj a) st' | inr e => (st', inr e) end) = (st', r) /\ (r <> inr Indet -> R st' s')) /\ awf s' /\ r <> inr MemErr).
    { intro N. rewrite (wf_not_fails b avail N), (SB N), copy_cells_spec, shift_0. unfold good.
      destruct (first_bad (a_cells b) t) as [[k e]|] eqn:FB.
      - destruct (first_bad_fault _ _ _ _ FB) as [FE _]. unfold bindM, push_obj, fail. cbn [a_add].
        destruct FE as [-> | ->]; (split; [|split; [apply Forall_snoc; auto|discriminate]]); eexists; (split; [reflexivity|]); intro; try congruence.
        apply R_push_dead. assumption.
      - unfold push_obj, ret. cbn [a_add]. rewrite (R_len _ _ HR). split; [|split; [apply Forall_snoc; auto|discriminate]].
        eexists. split; [reflexivity|]. intros _. rewrite firstn_all. apply R_push_plain; auto.
        + rewrite <- (with_same b) at 3. apply rel_static with (o := length s); auto. split; [|split; [|split]]; auto.
          rewrite NL in N. destruct (layout_of (a_shape b)); try discriminate; auto.
        + rewrite (static_data _ _ (a_shape b)); auto. discriminate.
        + apply never_heap_uses. exact N. }
    assert (DYN : never_heap (a_shape b) = false ->
      let '(s', r) := a_add s (if heap_fails (a_shape b) (Z.of_nat (a_size b)) avail then inr Thrown
                               else match first_bad (a_cells b) t with Some (_, e) => inr e | None => inl b end) in
      (exists st', (let (st', s0) := bindM (construct_base v0 trivial (a_shape b) (o_size ob) avail) (fun o =>
                      unwind (bindM (get_obj o) (fun ob0 => bindM (copy_elements (data_of src ob) (o_data ob0) t 0 (Z.to_nat (size_of ob))) (fun _ => ret o))) (destroy_base o)) st in
                    match s0 with inl a => ret (RObj a) st' | inr e => (st', inr e) end) = (st', r) /\ (r <> inr Indet -> R st' s')) /\ awf s' /\ r <> inr MemErr).
    { intro N. rewrite NL in N.
      assert (Q : o_size ob = Z.of_nat (a_size b) /\ length (a_cells b) = a_size b /\ (forall o ob0, o_shape ob0 = a_shape b -> o_data ob0 = data_of (V := V) o ob0)).
      { unfold size_of in S3. rewrite S1 in S3. unfold data_of. destruct (layout_of (a_shape b)) eqn:LE; try discriminate.
        - destruct S4 as (S4 & _). split; [|split]; auto. intros o ob0 ->. rewrite LE. reflexivity.
        - destruct S4 as (S4 & _). split; [|split]; auto. intros o ob0 ->. rewrite LE. reflexivity. }
      destruct Q as (Q1 & Q2 & Q3). rewrite Q1, S3, Nat2Z.id.
      assert (Ext : shape_extent (a_shape b) = -1 \/ Z.of_nat (a_size b) = shape_extent (a_shape b)).
      { destruct Wb as (_ & _ & _ & W). destruct (Z.eq_dec (shape_extent (a_shape b)) (-1)); auto. }
      destruct Wb as (W1 & W2 & W3 & W4).
      destruct (construct_base_spec v0 trivial st s (a_shape b) (Z.of_nat (a_size b)) avail HR S2 ltac:(lia)) as (st1 & R1 & E1).
      pose proof (construct_base_objs (a_shape b) (Z.of_nat (a_size b)) avail st) as [x OX]. rewrite E1 in OX. cbn [fst] in OX.
      unfold bindM at 1. rewrite E1. clear E1. destruct (heap_fails (a_shape b) (Z.of_nat (a_size b)) avail) eqn:HF.
      { cbn [a_add]. split; [|split; [apply Forall_snoc; auto|discriminate]]. eexists. split; [reflexivity|auto]. }
      rewrite (base_buf_spec _ _ S2 Ext) in R1. rewrite Nat2Z.id in R1.
      set (b1 := mk_abuf (a_shape b) (a_size b) (new_cells v0 trivial (a_shape b) (Z.of_nat (a_size b)))) in *.
      assert (L1 : length (a_cells b1) = length (a_cells b)). { unfold b1, new_cells. cbn [a_cells]. rewrite repeat_length, <- W2. lia. }
      destruct (R_abs _ _ _ _ R1 (live_snoc _ _)) as (ob1 & G1 & G2).
      assert (Ne : src <> length s) by (pose proof (nth_error_lt _ _ _ _ H2); lia).
      assert (H1' : nth_error (objs st1) src = Some (Some ob)). { rewrite OX. rewrite nth_error_app1; auto. apply (nth_error_lt _ _ _ _ H1). }
      assert (H2' : nth_error (s ++ [Some b1]) src = Some (Some b)). { rewrite nth_error_app1; auto. apply (nth_error_lt _ _ _ _ H2). }
      destruct (copy_elements_spec (a_size b) st1 _ src ob b (length s) ob1 b1 0 t R1 Ne H1' H2' G1 (live_snoc _ _) ltac:(lia) ltac:(lia)) as (st2 & C1 & C2 & C3).
      change (skipn 0 (a_cells b)) with (a_cells b) in *. assert (FA : firstn (a_size b) (a_cells b) = a_cells b) by (apply firstn_all2; lia). rewrite FA in C1, C2.
      rewrite shift_0 in *. rewrite upd_snoc in C2. unfold unwind, bindM, get_obj. rewrite G1.
      rewrite (Q3 (length s) ob1) by (destruct G2 as (G2 & _); exact G2). rewrite C1. unfold bad, good in *.
      destruct (first_bad (a_cells b) t) as [[k e]|] eqn:FB.
      - destruct (first_bad_fault _ _ _ _ FB) as [FE _]. cbn [a_add]. destruct FE as [-> | ->].
        + destruct (destroy_spec st2 _ (length s) _ C2 (live_snoc _ _)) as (st3 & E3 & R3). rewrite E3. rewrite upd_snoc in R3.
          split; [|split; [apply Forall_snoc; auto|discriminate]]. exists st3. split; [reflexivity|auto].
        + split; [|split; [apply Forall_snoc; auto|discriminate]]. exists st2. split; [reflexivity|congruence].
      - cbn [a_add]. rewrite firstn_all in C2. rewrite write_from_0 in C2 by lia.
        unfold overwrite in C2. rewrite skipn_all2 in C2 by lia. rewrite app_nil_r in C2.
        assert (EQ : with_cells b1 (a_cells b) = b) by (destruct b; reflexivity). rewrite EQ in C2.
        split; [|split; [|discriminate]].
        + exists st2. split; [reflexivity|]. intros _. exact C2.
        + apply Forall_snoc; auto. split; [|split; [|split]]; auto. }
    destruct (layout_of (a_shape b)) eqn:LE; rewrite NL in *.
    - apply PLAIN. reflexivity.
    - apply PLAIN. reflexivity.
    - apply DYN. reflexivity.
    - apply DYN. reflexivity.
  Qed.

  Lemma sim_move : forall st s src b avail t, R st s -> awf s -> a_live s src = Some b ->
    forall s' r, astep v0 trivial moved (OMove src avail t) s = Some (s', r) ->
    Sim st (OMove src avail t) s' r /\ awf s' /\ r <> inr MemErr.
  Proof.
    intros st s src b avail t HR Hw Hb s' r H. unfold astep in H. rewrite Hb in H.
    destruct (live_obj _ _ _ _ HR Hb) as (ob & H2 & H1 & H3). pose proof (awf_live _ _ _ Hw H2) as Wb.
    pose proof H3 as (S1 & S2 & S3 & S4). pose proof (never_heap_layout _ S2) as NL.
    destruct (never_heap (a_shape b)) eqn:N.
    - set (cs' := overwrite (a_cells b) (map (option_map moved) (firstn (good (a_cells b) t) (a_cells b)))).
      assert (GL := good_le (a_cells b) t).
      assert (LC : length cs' = length (a_cells b)).
      { unfold cs', overwrite. rewrite app_length, skipn_length, map_length, firstn_length. lia. }
      assert (Hw' : awf (a_set s src (with_cells b cs'))) by (apply Forall_upd; [assumption|apply wf_cells; auto]).
      assert (H0 : a_add (a_set s src (with_cells b cs')) (a_copy b avail t) = (s', r)) by (unfold cs', good; destruct (first_bad (a_cells b) t) as [[k e]|]; injection H as H; exact H).
      clear H.
      assert (EB := static_buf _ _ _ _ H3 N).
      assert (EC : map (option_map moved) (firstn (length (firstn (good (a_cells b) t) (a_cells b))) (o_buf ob)) ++ skipn (length (firstn (good (a_cells b) t) (a_cells b))) (o_buf ob) = cs').
      { rewrite EB. unfold cs', overwrite. rewrite map_length, firstn_length, Nat.min_l by lia. reflexivity. }
      assert (R1 : R (mk_state (heap st) (upd (objs st) src (Some (mk_object (a_shape b) (o_data ob) (o_size ob) cs')))) (a_set s src (with_cells b cs'))).
      { apply R_local with (ob := ob) (b := b); auto.
        - apply rel_static; auto.
        - rewrite (static_data src ob (a_shape b)), (static_data src _ (a_shape b)); auto. }
      assert (STEP : exists st', step v0 trivial moved (OMove src avail t) st = (st', r) /\ (r <> inr Indet -> R st' s')).
      { unfold step, as_res, move_construct. unfold bindM at 1 2. unfold get_obj at 1. rewrite H1, S1.
        assert (EQ : forall T (x y : T), match layout_of (a_shape b) with LStatic _ | LFixed _ => x | _ => y end = x).
        { intros T x y. destruct (layout_of (a_shape b)); try discriminate; reflexivity. }
        rewrite EQ. rewrite EB, copy_cells_spec, shift_0. rewrite EB in EC. rewrite EC. unfold set_obj. unfold bindM at 1.
        unfold a_copy in H0. rewrite (wf_not_fails b avail N) in H0.
        destruct (first_bad (a_cells b) t) as [[k e]|] eqn:FB.
        - destruct (first_bad_fault _ _ _ _ FB) as [FE _]. unfold bindM, push_obj, fail. cbn [heap objs].
          destruct FE as [-> | ->]; cbn [a_add] in H0; injection H0 as <- <-; eexists; (split; [reflexivity|]); intro; try congruence.
          apply (R_push_dead _ _ R1).
        - unfold push_obj, ret. cbn [heap objs a_add] in *. injection H0 as <- <-. rewrite (R_len _ _ R1 : length (upd (objs st) src _) = _).
          eexists. split; [reflexivity|]. intros _. unfold good. rewrite FB, firstn_all.
          apply (R_push_plain _ _ _ b R1); cbn [heap].
          + rewrite <- (with_same b) at 3. apply rel_static with (o := length (a_set s src (with_cells b cs'))); auto. split; [|split; [|split]]; auto.
            destruct (layout_of (a_shape b)); try discriminate; auto.
          + rewrite (static_data _ _ (a_shape b)); auto. discriminate.
          + apply never_heap_uses. exact N. }
      split; [exact STEP|].
      unfold a_copy in H0. rewrite (wf_not_fails b avail N) in H0. destruct (first_bad (a_cells b) t) as [[k e]|] eqn:FB.
      + destruct (first_bad_fault _ _ _ _ FB) as [FE _]. destruct FE as [-> | ->]; cbn [a_add] in H0; injection H0 as <- <-; split; try discriminate; apply Forall_snoc; auto.
      + cbn [a_add] in H0. injection H0 as <- <-. split; [apply Forall_snoc; auto|discriminate].
    - injection H as H. pose proof (sim_copy st s src b avail t HR Hw Hb) as K. rewrite H in K. destruct K as ((st' & K1 & K2) & K3 & K4).
      split; [|auto]. exists st'. split; auto. unfold step, as_res, move_construct in *. unfold bindM in *. unfold get_obj at 1. rewrite H1, S1.
      destruct (layout_of (a_shape b)); try discriminate; exact K1.
  Qed.

  Lemma shape_eqb_eq : forall a b, shape_eqb a b = true -> a = b.
  Proof.
    intros [E Mx|E Mx] [E' Mx'|E' Mx'] H; cbn in H; try discriminate; apply andb_true_iff in H; destruct H as [H1 H2];
      apply Z.eqb_eq in H1, H2; congruence.
  Qed.

  Lemma sim_assign : forall st s dst src t s' r, R st s -> awf s ->
    astep v0 trivial moved (OAssign dst src t) s = Some (s', r) -> Sim st (OAssign dst src t) s' r /\ awf s' /\ r <> inr MemErr.
  Proof.
    intros st s dst src t s' r HR Hw H. unfold astep in H.
    destruct (a_live s dst) as [b|] eqn:Hd; [|discriminate]. destruct (a_live s src) as [b'|] eqn:Hb; [|discriminate].
    destruct (live_obj _ _ _ _ HR Hd) as (lhs & D2 & D1 & D3). destruct (live_obj _ _ _ _ HR Hb) as (rhs & B2 & B1 & B3).
    pose proof (awf_live _ _ _ Hw D2) as Wb. pose proof (awf_live _ _ _ Hw B2) as Wb'.
    unfold Sim, step, as_res, copy_assign. unfold bindM at 1 2 3. unfold get_obj. rewrite D1, B1.
    pose proof D3 as (S1 & S2 & S3 & S4). pose proof B3 as (T1 & T2 & T3 & T4).
    fold (shape_eqb (o_shape lhs) (o_shape rhs)).
    rewrite S1, T1. destruct (shape_eqb (a_shape b) (a_shape b')) eqn:SE; cbn [andb] in H.
    2:{ injection H as <- <-. split; [|split; [assumption|discriminate]]. exists st. split; [reflexivity|auto]. }
    apply shape_eqb_eq in SE. pose proof (never_heap_layout _ S2) as NL.
    destruct (never_heap (a_shape b)) eqn:N.
    2:{ injection H as <- <-. split; [|split; [assumption|discriminate]]. exists st.
        destruct (layout_of (a_shape b)); try discriminate; (split; [reflexivity|auto]). }
    assert (EQ : forall T (x y : T), match layout_of (a_shape b) with LStatic _ | LFixed _ => x | _ => y end = x).
    { intros T x y. destruct (layout_of (a_shape b)); try discriminate; reflexivity. }
    rewrite EQ. assert (N' : never_heap (a_shape b') = true) by congruence.
    rewrite (static_buf _ _ _ _ B3 N'), (static_buf _ _ _ _ D3 N), copy_cells_spec, shift_0. unfold good.
    assert (DD : forall ob0 : object, o_shape ob0 = a_shape b -> data_of dst ob0 = data_of dst lhs).
    { intros ob0 E. rewrite (static_data dst ob0 (a_shape b)), (static_data dst lhs (a_shape b)); auto. }
    destruct (first_bad (a_cells b') t) as [[k e]|] eqn:FB.
    - injection H as <- <-. destruct (first_bad_fault _ _ _ _ FB) as [FE KL]. unfold set_obj, bindM, fail.
      assert (LEN : length (a_cells b) = length (a_cells b') \/ (k <= length (a_cells b))%nat).
      { left. apply Nat2Z.inj. destruct Wb as (_ & W2 & _ & W4). destruct Wb' as (_ & W2' & _ & W4'). rewrite W2, W2', <- SE. rewrite <- SE in W4'.
        clear - N W4 W4'.
        destruct (a_shape b) as [E Mx|E Mx]; cbn [capacity shape_extent] in *; destruct (Z.eq_dec E (-1)) as [->|NE]; auto;
          try (rewrite W4, W4' by auto; reflexivity). cbn in N. discriminate. }
      assert (WF : wf_buf (with_cells b (overwrite (a_cells b) (firstn k (a_cells b'))))).
      { apply wf_cells; auto. unfold overwrite. rewrite app_length, skipn_length, firstn_length. lia. }
      split; [|split; [|destruct FE as [-> | ->]; discriminate]].
      + eexists. split; [reflexivity|]. intros _. apply R_local with (ob := lhs) (b := b); auto.
        apply rel_static; auto.
      + apply Forall_upd; auto.
    - injection H as <- <-. unfold set_obj, ret. split; [|split; [apply Forall_upd; auto|discriminate]].
      eexists. split; [reflexivity|]. intros _. rewrite firstn_all. apply R_local with (ob := lhs) (b := b); auto.
      + rewrite <- (with_same b'). apply rel_static; auto. split; [|split; [|split]]; auto.
        rewrite never_heap_layout in N' by auto. destruct (layout_of (a_shape b')); try discriminate; auto.
      + cbn [on_heap]. rewrite !never_heap_uses; auto.
  Qed.

  Lemma sim_assign_array : forall st s o vs t s' r, R st s -> awf s -> Z.of_nat (length vs) < 2 ^ 63 ->
    astep v0 trivial moved (OAssignArray o vs t) s = Some (s', r) -> Sim st (OAssignArray o vs t) s' r /\ awf s' /\ r <> inr MemErr.
  Proof.
    intros st s o vs t s' r HR Hw Hl H. unfold astep in H. destruct (a_live s o) as [b|] eqn:Hb; [|discriminate].
    destruct (live_obj _ _ _ _ HR Hb) as (ob & H2 & H1 & H3). pose proof (awf_live _ _ _ Hw H2) as Wb. pose proof H3 as (S1 & S2 & S3 & S4).
    unfold Sim, step, as_res, assign_array. unfold bindM at 1 2. unfold get_obj. rewrite H1, S1, S3. unfold dynamic_extent.
    set (n := Z.of_nat (length vs)) in *.
    assert (D : ((0 <? n) && ((shape_extent (a_shape b) =? -1) || (n =? shape_extent (a_shape b)))) =
                negb ((n =? 0) || negb (shape_extent (a_shape b) =? -1) && negb (n =? shape_extent (a_shape b)))).
    { destruct (Z.eqb_spec n 0); destruct (Z.ltb_spec 0 n); lia. }
    rewrite D. destruct ((n =? 0) || _); cbn [negb].
    { injection H as <- <-. split; [|split; [assumption|discriminate]]. exists st. split; [reflexivity|auto]. }
    rewrite cast_size by lia. destruct (Z.eqb_spec n (Z.of_nat (a_size b))) as [En|En]; cbn [negb] in H.
    2:{ injection H as <- <-. split; [|split; [assumption|discriminate]]. exists st. split; [reflexivity|auto]. }
    pose proof Wb as (_ & _ & W3 & _).
    destruct (copy_values_spec vs st s o ob b 0 t HR H1 H2 ltac:(lia)) as (st1 & C1 & C2 & C3). rewrite shift_0 in *.
    rewrite C1. unfold bad, good in *. destruct (first_bad_map vs t) as (x & X1 & X2). rewrite X1 in *. destruct x as [[k e]|].
    - subst e. injection H as <- <-. pose proof (first_bad_fault _ _ _ _ X1) as [_ KL]. rewrite map_length in KL.
      rewrite write_from_0 in C2 by (rewrite firstn_length, map_length; lia).
      split; [|split; [|discriminate]].
      + exists st1. split; [reflexivity|]. intros _. exact C2.
      + apply Forall_upd; auto. apply (wf_cells b); auto. unfold overwrite. rewrite app_length, skipn_length, firstn_length, map_length. lia.
    - injection H as <- <-. rewrite firstn_all in C2. rewrite write_from_0 in C2 by (rewrite map_length; lia).
      split; [|split; [|discriminate]].
      + exists st1. split; [reflexivity|]. intros _. exact C2.
      + apply Forall_upd; auto. apply (wf_cells b); auto. unfold overwrite. rewrite app_length, skipn_length, map_length. lia.
  Qed.

  Lemma read_load : forall (st : state) (s : astate) o ob b i r (HR : R st s), nth_error (objs st) o = Some (Some ob) -> nth_error s o = Some (Some b) ->
    obj_rel (heap st) o ob b -> a_read (a_elem b i) = Some r ->
    (let (st', x) := load (data_of o ob) i st in match x with inl a => (st', inl (RVal a)) | inr e => (st', inr e) end) = (st, r) /\ r <> inr MemErr.
  Proof.
    intros st s o ob b i r HR H1 H2 H3 H. unfold a_elem in H.
    destruct (Z.leb_spec 0 i); [|discriminate]. destruct (Z.ltb_spec i (Z.of_nat (a_size b))); [|discriminate]. cbn [andb] in H.
    assert (L : (Z.to_nat i < length (a_cells b))%nat). { apply nth_error_Some. destruct (nth_error (a_cells b) (Z.to_nat i)); [discriminate|]. discriminate H. }
    rewrite (load_spec st s o ob b i HR H1 H2 H3) by lia.
    destruct (nth_error (a_cells b) (Z.to_nat i)) as [[v|]|]; cbn in H; try discriminate; injection H as <-; split; try reflexivity; discriminate.
  Qed.

  Theorem step_sim : forall c st s s' r, R st s -> awf s -> op_ok c -> astep v0 trivial moved c s = Some (s', r) ->
    Sim st c s' r /\ awf s' /\ r <> inr MemErr.
  Proof.
    intros c st s s' r HR Hw Hc H. destruct c as [sh a avail|sh vs avail t|src avail t|src avail t|dst src t|o vs t|o i v|o i|o|o|o i|o|o|o|o].
    - cbn [astep] in H. injection H as H. destruct Hc as [Hs Ha]. pose proof (sim_new st s sh a avail HR Hw Hs Ha) as K. rewrite H in K. exact K.
    - cbn [astep] in H. injection H as H. pose proof (sim_from_array st s sh vs avail t HR Hw Hc) as K. rewrite H in K. exact K.
    - cbn [astep] in H. destruct (a_live s src) as [b|] eqn:Hb; [|discriminate]. injection H as H.
      pose proof (sim_copy st s src b avail t HR Hw Hb) as K. rewrite H in K. exact K.
    - pose proof H as H'. cbn [astep] in H'. destruct (a_live s src) as [b|] eqn:Hb; [|discriminate]. apply (sim_move st s src b avail t HR Hw Hb). assumption.
    - apply (sim_assign st s dst src t); assumption.
    - apply (sim_assign_array st s o vs t); assumption.
    - cbn [astep] in H. destruct (a_live s o) as [b|] eqn:Hb; [|discriminate]. destruct (a_elem b i) as [x|] eqn:He; [|discriminate]. injection H as <- <-.
      destruct (live_obj _ _ _ _ HR Hb) as (ob & H2 & H1 & H3). unfold a_elem in He.
      destruct (Z.leb_spec 0 i); [|discriminate]. destruct (Z.ltb_spec i (Z.of_nat (a_size b))); [|discriminate]. cbn [andb] in He.
      destruct (store_spec st s o ob b i v HR H1 H2) as (st1 & S1 & S2 & S3). { pose proof (nth_error_lt _ _ _ _ He). lia. }
      split; [|split; [|discriminate]].
      + exists st1. unfold step, as_res, write, bindM, get_obj, ret. rewrite H1, S1. split; [reflexivity|]. intros _. exact S2.
      + apply Forall_upd; auto. apply (wf_cells b); [apply (awf_live _ _ _ Hw H2)|apply upd_length].
    - cbn [astep] in H. destruct (a_live s o) as [b|] eqn:Hb; [|discriminate]. destruct (a_read (a_elem b i)) as [x|] eqn:He; [|discriminate]. injection H as <- <-.
      destruct (live_obj _ _ _ _ HR Hb) as (ob & H2 & H1 & H3). destruct (read_load st s o ob b i x HR H1 H2 H3 He) as [K1 K2].
      split; [|auto]. exists st. unfold step, as_res, read, bindM, get_obj, ret. rewrite H1. auto.
    - cbn [astep] in H. destruct (a_live s o) as [b|] eqn:Hb; [|discriminate]. destruct (live_obj _ _ _ _ HR Hb) as (ob & H2 & H1 & H3).
      unfold Sim, step, as_res, front, bindM, get_obj, ret, is_empty. rewrite H1. pose proof H3 as (S1 & S2 & S3 & S4). rewrite S3.
      destruct (Nat.eqb_spec (a_size b) 0) as [Z0|Z0].
      + rewrite Z0. injection H as <- <-. split; [|split; [assumption|discriminate]]. exists st. split; [reflexivity|auto].
      + destruct (Z.eqb_spec (Z.of_nat (a_size b)) 0); [lia|]. destruct (a_read (a_elem b 0)) as [x|] eqn:He; [|discriminate]. injection H as <- <-.
        destruct (read_load st s o ob b 0 x HR H1 H2 H3 He) as [K1 K2]. split; [|auto]. exists st. split; [exact K1|auto].
    - cbn [astep] in H. destruct (a_live s o) as [b|] eqn:Hb; [|discriminate]. destruct (live_obj _ _ _ _ HR Hb) as (ob & H2 & H1 & H3).
      unfold Sim, step, as_res, back, bindM, get_obj, ret, is_empty. rewrite H1. pose proof H3 as (S1 & S2 & S3 & S4). rewrite S3.
      pose proof (awf_live _ _ _ Hw H2) as (_ & _ & W & _).
      destruct (Nat.eqb_spec (a_size b) 0) as [Z0|Z0].
      + rewrite Z0. injection H as <- <-. split; [|split; [assumption|discriminate]]. exists st. split; [reflexivity|auto].
      + destruct (Z.eqb_spec (Z.of_nat (a_size b)) 0); [lia|]. rewrite cast_size by lia.
        destruct (a_read (a_elem b (Z.of_nat (a_size b) - 1))) as [x|] eqn:He; [|discriminate]. injection H as <- <-.
        destruct (read_load st s o ob b _ x HR H1 H2 H3 He) as [K1 K2]. split; [|auto]. exists st. split; [exact K1|auto].
    - cbn [astep] in H. destruct (a_live s o) as [b|] eqn:Hb; [|discriminate]. destruct (live_obj _ _ _ _ HR Hb) as (ob & H2 & H1 & H3).
      unfold Sim, step, as_res, get_elem, bindM, get_obj, ret. rewrite H1. pose proof H3 as (S1 & S2 & S3 & S4). rewrite S1. unfold dynamic_extent.
      pose proof (awf_live _ _ _ Hw H2) as (_ & _ & W & W4). cbn [op_ok] in Hc.
      destruct (Z.eqb_spec (shape_extent (a_shape b)) (-1)) as [X|X].
      + cbn [negb andb]. injection H as <- <-. split; [|split; [assumption|discriminate]]. exists st. split; [reflexivity|auto].
      + cbn [negb andb]. specialize (W4 X). destruct (Z.ltb_spec i 0); [discriminate|]. rewrite <- W4.
        rewrite int_lt_exact.
        2:{ split; [cbn; lia|]. split; [cbn; lia|]. split; [apply in_ity_iff; unfold int_value; cbn [ity_bits ity_signed size_ty]; lia|].
            split; [apply in_ptrdiff_nonneg; lia|left; lia]. }
        destruct (Z.leb_spec (Z.of_nat (a_size b)) i); destruct (Z.ltb_spec i (Z.of_nat (a_size b))); try lia.
        * injection H as <- <-. split; [|split; [assumption|discriminate]]. exists st. split; [reflexivity|auto].
        * destruct (a_read (a_elem b i)) as [x|] eqn:He; [|discriminate]. injection H as <- <-.
          destruct (read_load st s o ob b _ x HR H1 H2 H3 He) as [K1 K2]. split; [|auto]. exists st. split; [exact K1|auto].
    - cbn [astep] in H. destruct (a_live s o) as [b|] eqn:Hb; [|discriminate]. injection H as <- <-. destruct (live_obj _ _ _ _ HR Hb) as (ob & H2 & H1 & H3).
      unfold Sim, step, as_res, iterate, bindM, get_obj, ret. rewrite H1. pose proof H3 as (S1 & S2 & S3 & S4). rewrite S3, Nat2Z.id.
      pose proof (awf_live _ _ _ Hw H2) as (_ & _ & W & _). rewrite (load_all_spec (a_size b) st s o ob b 0 HR H1 H2 H3) by lia.
      change (skipn 0 (a_cells b)) with (a_cells b). unfold elements. destruct (first_bad (firstn (a_size b) (a_cells b)) None) as [[k e]|] eqn:FB.
      + destruct (first_bad_fault _ _ _ _ FB) as [FE _]. split; [|split; [assumption|destruct FE as [-> | ->]; discriminate]]. exists st. split; [reflexivity|auto].
      + split; [|split; [assumption|discriminate]]. exists st. split; [reflexivity|auto].
    - cbn [astep] in H. destruct (a_live s o) as [b|] eqn:Hb; [|discriminate]. injection H as <- <-. destruct (live_obj _ _ _ _ HR Hb) as (ob & H2 & H1 & H3).
      unfold Sim, step, as_res, bindM, get_obj, ret. rewrite H1. destruct H3 as (S1 & S2 & S3 & S4). rewrite S3.
      split; [|split; [assumption|discriminate]]. exists st. split; [reflexivity|auto].
    - cbn [astep] in H. destruct (a_live s o) as [b|] eqn:Hb; [|discriminate]. injection H as <- <-. destruct (live_obj _ _ _ _ HR Hb) as (ob & H2 & H1 & H3).
      unfold Sim, step, as_res, bindM, get_obj, ret, is_empty. rewrite H1. destruct H3 as (S1 & S2 & S3 & S4). rewrite S3.
      split; [|split; [assumption|discriminate]]. exists st. split; [|auto]. do 3 f_equal.
      destruct (Nat.eqb_spec (a_size b) 0); destruct (Z.eqb_spec (Z.of_nat (a_size b)) 0); try lia; reflexivity.
    - cbn [astep] in H. destruct (a_live s o) as [b|] eqn:Hb; [|discriminate]. injection H as <- <-. apply live_spec in Hb.
      destruct (destroy_spec st s o b HR Hb) as (st1 & E1 & R1). split; [|split; [apply Forall_upd; auto|discriminate]].
      exists st1. unfold step, as_res, bindM, ret. rewrite E1. auto.
  Qed.


  Lemma run_sim : forall h st s s' rs, R st s -> awf s -> Forall op_ok h -> arun v0 trivial moved h s = Some (s', rs) ->
    exists st', run v0 trivial moved h st = (st', rs) /\ (~ In (inr Indet) rs -> R st' s' /\ awf s') /\ ~ In (inr MemErr) rs.
  Proof.
    induction h as [|c h IH]; intros st s s' rs HR Hw Hc H; cbn [arun run] in *.
    - injection H as <- <-. exists st. split; [reflexivity|]. auto.
    - inversion Hc as [|c' h' Hc1 Hc2]; subst. destruct (astep v0 trivial moved c s) as [[s1 r]|] eqn:E; [|discriminate].
      destruct (step_sim c st s s1 r HR Hw Hc1 E) as ((st1 & K1 & K2) & K3 & K4). rewrite K1.
      assert (GO : r <> inr Indet -> (match arun v0 trivial moved h s1 with None => None | Some (s'', rs0) => Some (s'', r :: rs0) end = Some (s', rs)) ->
        exists st', (let (st'', rs0) := run v0 trivial moved h st1 in (st'', r :: rs0)) = (st', rs) /\ (~ In (inr Indet) rs -> R st' s' /\ awf s') /\ ~ In (inr MemErr) rs).
      { intros N Q. destruct (arun v0 trivial moved h s1) as [[s2 rs2]|] eqn:E2; [|discriminate]. injection Q as <- <-.
        destruct (IH st1 s1 s2 rs2 (K2 N) K3 Hc2 E2) as (st2 & J1 & J2 & J3). rewrite J1. exists st2. split; [reflexivity|]. split.
        - intro I. apply J2. intro. apply I. right. assumption.
        - intros [I|I]; auto. }
      destruct r as [x|[| | | |]]; try (apply GO; [discriminate|exact H]); try congruence.
      injection H as <- <-. exists st1. split; [reflexivity|]. split.
      + intro I. destruct I. left. reflexivity.
      + intros [I|[]]. discriminate.
  Qed.
End Step.
