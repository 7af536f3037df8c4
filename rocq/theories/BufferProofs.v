(** Proofs about buffers. *)

From Coq Require Import ZArith Arith Bool Lia List.
From Verif Require Import Base ExpandModel ExpandSpec ExpandProofs RangeSpec RangeProofs BufferModel BufferSpec.
Import ListNotations.
Local Open Scope Z_scope.

(** ** Comparisons of mixed integral types *)
Lemma pow_mono : forall a b, 0 <= a <= b -> 2 ^ a <= 2 ^ b.
Proof. intros. apply Z.pow_le_mono_r; lia. Qed.

Lemma in_common_nonneg : forall a b x, 1 <= ity_bits a <= 64 -> 1 <= ity_bits b <= 64 -> in_ity a x = true -> 0 <= x ->
  in_ity (common_type a b) x = true /\ in_ity (common_type b a) x = true.
Proof.
  intros [ba sa] [bb sb] x Ha Hb Hx Px. cbn [ity_bits] in *. rewrite in_ity_iff in Hx. rewrite !in_ity_iff.
  unfold int_value, common_type, promote in *. cbn [ity_bits ity_signed] in *.
  assert (P31 : 2 ^ 31 = 2147483648) by reflexivity.
  assert (Q : forall k, 1 <= k -> 2 ^ k = 2 * 2 ^ (k - 1) /\ 0 < 2 ^ (k - 1)) by (intros; apply pow_split; lia).
  pose proof (Q ba ltac:(lia)). pose proof (Q bb ltac:(lia)).
  assert (U : ba < 32 -> x < 2 ^ 31).
  { intro. pose proof (pow_mono ba 31 ltac:(lia)). destruct sa; [|lia]. lia. }
  destruct (Z.ltb_spec ba 32); destruct (Z.ltb_spec bb 32); cbn [ity_bits ity_signed int32];
    destruct sa, sb; cbn [Bool.eqb ity_bits ity_signed];
    repeat match goal with |- context [?p <? ?q] => destruct (Z.ltb_spec p q) | |- context [?p <=? ?q] => destruct (Z.leb_spec p q) end;
    cbn [ity_bits ity_signed int32]; try lia;
    try (pose proof (pow_mono 31 (bb - 1) ltac:(lia)); pose proof (pow_mono 31 bb ltac:(lia)); change (32 - 1) with 31 in *; lia);
    try (pose proof (pow_mono (ba - 1) (bb - 1) ltac:(lia)); lia);
    try (pose proof (pow_mono ba (bb - 1) ltac:(lia)); lia);
    try (pose proof (pow_mono ba bb ltac:(lia)); lia);
    try (pose proof (pow_mono (ba - 1) bb ltac:(lia)); lia);
    try (assert (ba = 32) by lia; subst ba; change (32 - 1) with 31 in *; lia);
    try (pose proof (pow_mono ba 31 ltac:(lia)); change (32 - 1) with 31 in *; lia);
    change (ity_bits int32) with 32 in *; change (32 - 1) with 31 in *; try lia.
Qed.

Lemma in_common_signed : forall a b x, 1 <= ity_bits a <= 64 -> 1 <= ity_bits b <= 64 ->
  ity_signed a = true -> ity_signed b = true -> in_ity a x = true ->
  in_ity (common_type a b) x = true /\ in_ity (common_type b a) x = true.
Proof.
  intros [ba sa] [bb sb] x Ha Hb Sa Sb Hx. cbn [ity_signed] in Sa, Sb. subst sa sb. rewrite in_ity_iff in Hx. rewrite !in_ity_iff.
  unfold int_value, common_type, promote in *. cbn [ity_bits ity_signed] in *.
  assert (P31 : 2 ^ 31 = 2147483648) by reflexivity.
  assert (U : ba < 33 -> 2 ^ (ba - 1) <= 2 ^ 31) by (intro; apply pow_mono; lia).
  destruct (Z.ltb_spec ba 32); destruct (Z.ltb_spec bb 32); cbn [ity_bits ity_signed int32 Bool.eqb];
    repeat match goal with |- context [?p <? ?q] => destruct (Z.ltb_spec p q) end;
    cbn [ity_bits ity_signed int32]; change (32 - 1) with 31 in *; try lia;
    try (pose proof (pow_mono 31 (bb - 1) ltac:(lia)); lia);
    try (pose proof (pow_mono (ba - 1) (bb - 1) ltac:(lia)); lia).
Qed.

Lemma common_bits : forall a b, 1 <= ity_bits a -> 1 <= ity_bits b -> 1 <= ity_bits (common_type a b).
Proof.
  intros [ba sa] [bb sb] Ha Hb. unfold common_type, promote. cbn [ity_bits ity_signed] in *.
  destruct (Z.ltb_spec ba 32); destruct (Z.ltb_spec bb 32); cbn [ity_bits ity_signed int32]; destruct sa, sb; cbn [Bool.eqb ity_bits ity_signed];
    repeat match goal with |- context [?p <? ?q] => destruct (Z.ltb_spec p q) | |- context [?p <=? ?q] => destruct (Z.leb_spec p q) end;
    cbn [ity_bits ity_signed int32]; lia.
Qed.

Definition comparable (a b : ity) (x y : Z) : Prop :=
  1 <= ity_bits a <= 64 /\ 1 <= ity_bits b <= 64 /\ in_ity a x = true /\ in_ity b y = true /\
  ((0 <= x /\ 0 <= y) \/ (ity_signed a = true /\ ity_signed b = true)).

Lemma comparable_cast : forall a b x y, comparable a b x y -> cast (common_type a b) x = x /\ cast (common_type a b) y = y.
Proof.
  intros a b x y (Ha & Hb & Hx & Hy & H). pose proof (common_bits a b ltac:(lia) ltac:(lia)) as Hc.
  split; apply cast_id; auto; destruct H as [[P1 P2]|[P1 P2]].
  - exact (proj1 (in_common_nonneg a b x Ha Hb Hx P1)).
  - exact (proj1 (in_common_signed a b x Ha Hb P1 P2 Hx)).
  - exact (proj2 (in_common_nonneg b a y Hb Ha Hy P2)).
  - exact (proj2 (in_common_signed b a y Hb Ha P2 P1 Hy)).
Qed.
Lemma int_lt_exact : forall a b x y, comparable a b x y -> int_lt a b x y = (x <? y).
Proof. intros a b x y H. unfold int_lt. destruct (comparable_cast _ _ _ _ H) as [-> ->]. reflexivity. Qed.
Lemma int_eq_exact : forall a b x y, comparable a b x y -> int_eq a b x y = (x =? y).
Proof. intros a b x y H. unfold int_eq. destruct (comparable_cast _ _ _ _ H) as [-> ->]. reflexivity. Qed.

Lemma in_ptrdiff_nonneg : forall z, 0 <= z < 2 ^ 63 -> in_ity ptrdiff_ty z = true.
Proof. intros z H. apply in_ptrdiff. unfold representable. lia. Qed.

Lemma arg_nonneg : forall t x, in_ity t x = true -> ity_signed t = false -> 0 <= x.
Proof. intros t x H S. rewrite in_ity_iff in H. unfold int_value in H. rewrite S in H. lia. Qed.

Lemma arg_vs_nonneg : forall t x y, 1 <= ity_bits t <= 64 -> in_ity t x = true -> 0 <= y < 2 ^ 63 ->
  comparable t ptrdiff_ty x y /\ comparable ptrdiff_ty t y x.
Proof.
  intros t x y Ht Hx Hy. pose proof (in_ptrdiff_nonneg y Hy) as Py.
  assert (B : 1 <= ity_bits ptrdiff_ty <= 64) by (cbn; lia).
  destruct (ity_signed t) eqn:S.
  - split; repeat split; auto; try lia; right; auto.
  - pose proof (arg_nonneg _ _ Hx S). split; repeat split; auto; try lia; left; lia.
Qed.
Lemma arg_vs_zero : forall t x, 1 <= ity_bits t <= 64 -> in_ity t x = true -> comparable t int32 x 0.
Proof.
  intros t x Ht Hx. assert (B : 1 <= ity_bits int32 <= 64) by (cbn; lia).
  destruct (ity_signed t) eqn:S; repeat split; auto; try lia.
  pose proof (arg_nonneg _ _ Hx S). left; lia.
Qed.

Lemma cast_size_mod : forall z, cast size_ty z = z mod 2 ^ 64.
Proof. reflexivity. Qed.

Lemma proper_range : forall a, proper_size a -> - 2 ^ 63 <= sa_value a < 2 ^ 64.
Proof.
  intros a (B & H & _). rewrite in_ity_iff in H. unfold int_value in H.
  destruct (ity_signed (sa_type a)).
  - pose proof (pow_mono (ity_bits (sa_type a) - 1) 63 ltac:(lia)). lia.
  - pose proof (pow_mono (ity_bits (sa_type a)) 64 ltac:(lia)). lia.
Qed.

(** ** Lists *)
Lemma upd_snoc : forall A (l : list A) x y, upd (l ++ [x]) (length l) y = l ++ [y].
Proof. induction l as [|a l IH]; intros x y; cbn; [reflexivity|]. f_equal. apply IH. Qed.
Lemma nth_error_snoc : forall A (l : list A) x o,
  nth_error (l ++ [x]) o = if Nat.eqb o (length l) then Some x else nth_error l o.
Proof.
  intros A l x o. destruct (Nat.eqb_spec o (length l)) as [->|N].
  - rewrite nth_error_app2 by lia. rewrite Nat.sub_diag. reflexivity.
  - destruct (Nat.lt_ge_cases o (length l)).
    + apply nth_error_app1. assumption.
    + rewrite nth_error_app2 by lia. transitivity (@None A); [|symmetry; apply nth_error_None; lia].
      apply nth_error_None. cbn. lia.
Qed.
Lemma nth_error_upd : forall A (l : list A) i j a,
  nth_error (upd l i a) j = if Nat.eqb i j then (if Nat.ltb i (length l) then Some a else None) else nth_error l j.
Proof.
  intros A l i j a. destruct (Nat.eqb_spec i j) as [<-|N].
  - destruct (Nat.ltb_spec i (length l)).
    + apply nth_error_upd_same. assumption.
    + apply nth_error_None. rewrite upd_length. lia.
  - apply nth_error_upd_other. assumption.
Qed.
Lemma count_upd : forall A (f : A -> bool) (l : list A) i a x, nth_error l i = Some x ->
  (length (filter f (upd l i a)) + (if f x then 1 else 0) = length (filter f l) + (if f a then 1 else 0))%nat.
Proof.
  intros A f. induction l as [|y l IH]; intros i a x H; [destruct i; discriminate|].
  destruct i; cbn in *.
  - injection H as ->. destruct (f x), (f a); cbn; lia.
  - specialize (IH i a x H). destruct (f y); cbn; lia.
Qed.
Lemma count_snoc : forall A (f : A -> bool) (l : list A) a,
  (length (filter f (l ++ [a])) = length (filter f l) + (if f a then 1 else 0))%nat.
Proof. intros A f l a. rewrite filter_app, app_length. cbn. destruct (f a); reflexivity. Qed.
Lemma nth_error_lt : forall A (l : list A) i x, nth_error l i = Some x -> (i < length l)%nat.
Proof. intros A l i x H. apply nth_error_Some. congruence. Qed.
Lemma firstn_upd : forall A (l : list A) n i a, firstn n (upd l i a) = upd (firstn n l) i a.
Proof. induction l as [|x l IH]; intros n i a; destruct n, i; cbn; try reflexivity. f_equal. apply IH. Qed.
Lemma upd_split : forall A (l : list A) i a, (i < length l)%nat -> upd l i a = firstn i l ++ a :: skipn (S i) l.
Proof. induction l as [|x l IH]; intros i a H; [cbn in H; lia|]. destruct i; cbn; [reflexivity|]. f_equal. apply IH. cbn in H; lia. Qed.

(** ** Layouts *)
Lemma layout_cases : forall sh, sensible sh ->
  match layout_of sh with
  | LStatic E => shape_extent sh = E /\ 0 <= E < 2 ^ 63 /\ heap_limit sh = None
  | LFixed Mx => sh = FixedBuffer (-1) Mx /\ 0 <= Mx < 2 ^ 63
  | LDynamic B => sh = Buffer (-1) B /\ 0 < B < 2 ^ 63
  | LHeap => (exists E Mx, sh = Buffer E Mx) /\ heap_limit sh = Some 0 /\
             (shape_extent sh = -1 -> exists Mx, sh = Buffer (-1) Mx /\ Mx <= 0)
  end.
Proof.
  intros [E Mx|E Mx] H; cbn [sensible] in H; unfold layout_of.
  - unfold determine_memory_location.
    destruct (Z.ltb_spec Mx 0).
    + destruct (Z.ltb_spec E 0).
      * assert (E = -1) by lia. subst. cbn [dynamic_buffer_base Z.eqb]. unfold heap_limit. cbn [Z.eqb Pos.eqb].
        split; [eauto|]. split; [f_equal; lia|]. intros _. exists Mx. split; [reflexivity|lia].
      * unfold static_buffer_base. destruct (Z.eqb_spec E (-1)); [lia|]. cbn [shape_extent heap_limit].
        destruct (Z.eqb_spec E (-1)); [lia|]. destruct (Z.ltb_spec Mx 0); [|lia]. cbn. split; [reflexivity|]. split; [lia|reflexivity].
    + destruct (Z.eqb_spec Mx 0) as [->|N].
      * cbn [dynamic_buffer_base Z.eqb]. split; [eauto|]. cbn [heap_limit shape_extent]. split.
        -- destruct (Z.eqb_spec E (-1)); [reflexivity|]. reflexivity.
        -- intros ->. exists 0. split; [reflexivity|lia].
      * destruct (Z.ltb_spec E 0).
        -- assert (E = -1) by lia. subst. unfold dynamic_buffer_base. destruct (Z.eqb_spec Mx 0); [lia|]. split; [reflexivity|lia].
        -- destruct (Z.leb_spec E Mx).
           ++ unfold static_buffer_base. destruct (Z.eqb_spec E (-1)); [lia|]. cbn [shape_extent heap_limit].
              destruct (Z.eqb_spec E (-1)); [lia|]. destruct (Z.ltb_spec Mx 0); [lia|]. destruct (Z.ltb_spec 0 Mx); [|lia].
              destruct (Z.leb_spec E Mx); [|lia]. cbn. split; [reflexivity|]. split; [lia|reflexivity].
           ++ cbn [dynamic_buffer_base Z.eqb]. split; [eauto|]. cbn [shape_extent heap_limit].
              destruct (Z.eqb_spec E (-1)); [lia|]. destruct (Z.ltb_spec Mx 0); [lia|]. destruct (Z.leb_spec E Mx); [lia|].
              rewrite andb_false_r. cbn. split; [reflexivity|]. intros ->; lia.
  - unfold static_buffer_base. destruct (Z.eqb_spec E (-1)) as [->|N].
    + split; [reflexivity|lia].
    + cbn. split; [reflexivity|]. split; [lia|reflexivity].
Qed.

Lemma shape_ok_sensible : forall sh, sensible sh -> shape_ok sh = true.
Proof.
  intros sh H. pose proof (layout_cases sh H) as L. unfold shape_ok.
  apply andb_true_iff. split.
  - destruct (layout_of sh); auto. apply Z.leb_le. lia.
  - destruct sh; auto. cbn [sensible] in H. apply andb_true_iff. split; apply Z.leb_le; lia.
Qed.

(** ** Simulation *)
Section Sim.
  Context {V : Type}.
  Variable v0 : V.
  Variable trivial : bool.
  Variable moved : V -> V.
  Local Notation cell := (option V).
  Notation state := (state (V := V)).
  Notation object := (object (V := V)).
  Notation abuf := (abuf (V := V)).
  Notation astate := (astate (V := V)).
  Notation M := (M (V := V)).

  Definition owns (h : list (block (V := V))) (p : ptr) (cs : list cell) : Prop :=
    exists b, p = PHeap b /\ nth_error h b = Some (Live cs).

  Definition obj_rel (h : list block) (o : nat) (ob : object) (b : abuf) : Prop :=
    o_shape ob = a_shape b /\ sensible (a_shape b) /\ size_of ob = Z.of_nat (a_size b) /\
    match layout_of (a_shape b) with
    | LStatic _ | LFixed _ => o_buf ob = a_cells b
    | LDynamic B =>
        length (a_cells b) = a_size b /\ length (o_buf ob) = Z.to_nat B /\
        if Z.of_nat (a_size b) <=? B then o_data ob = PObj o /\ firstn (a_size b) (o_buf ob) = a_cells b
        else owns h (o_data ob) (a_cells b)
    | LHeap =>
        length (a_cells b) = a_size b /\
        if Nat.eqb (a_size b) 0 then o_data ob = PNull else owns h (o_data ob) (a_cells b)
    end.

  Definition on_heap (ob : option abuf) : bool :=
    match ob with Some b => uses_heap (a_shape b) (Z.of_nat (a_size b)) | None => false end.
  Definition is_live (b : block (V := V)) : bool := match b with Live _ => true | Freed => false end.

  Record R (st : state) (s : astate) : Prop := {
    R_len : length (objs st) = length s;
    R_dead : forall o, nth_error (objs st) o = Some None <-> nth_error s o = Some None;
    R_live : forall o ob, nth_error (objs st) o = Some (Some ob) -> exists b, nth_error s o = Some (Some b) /\ obj_rel (heap st) o ob b;
    R_inj : forall o1 o2 ob1 ob2 k, nth_error (objs st) o1 = Some (Some ob1) -> nth_error (objs st) o2 = Some (Some ob2) ->
      data_of o1 ob1 = PHeap k -> data_of o2 ob2 = PHeap k -> o1 = o2;
    R_count : length (filter is_live (heap st)) = length (filter on_heap s) }.

  Lemma R_initial : R initial [].
  Proof.
    split; cbn; auto.
    - intro o. destruct o; cbn; split; discriminate.
    - intros o ob H. destruct o; discriminate.
    - intros o1 o2 ob1 ob2 k H. destruct o1; discriminate.
  Qed.

  Lemma R_abs : forall st s o b, R st s -> nth_error s o = Some (Some b) ->
    exists ob, nth_error (objs st) o = Some (Some ob) /\ obj_rel (heap st) o ob b.
  Proof.
    intros st s o b HR H. pose proof (nth_error_lt _ _ _ _ H) as L. rewrite <- (R_len _ _ HR) in L.
    destruct (nth_error (objs st) o) as [[ob|]|] eqn:E.
    - destruct (R_live _ _ HR o ob E) as [b' [H1 H2]]. rewrite H in H1. injection H1 as <-. eauto.
    - apply (R_dead _ _ HR) in E. congruence.
    - apply nth_error_None in E. lia.
  Qed.

  Lemma live_spec : forall s o b, a_live (V := V) s o = Some b <-> nth_error s o = Some (Some b).
  Proof. intros s o b. unfold a_live. destruct (nth_error s o) as [[x|]|]; split; intro H; congruence. Qed.

  (** The pointer of an object determines where its elements are. *)
  Lemma region_spec : forall st s o ob b, R st s -> nth_error (objs st) o = Some (Some ob) -> nth_error s o = Some (Some b) ->
    obj_rel (heap st) o ob b -> (0 < length (a_cells b))%nat ->
    exists cs, region st (data_of o ob) = Some cs /\ firstn (length (a_cells b)) cs = a_cells b /\
      (length (a_cells b) <= length cs)%nat /\
      (data_of o ob = PObj o \/ exists k, data_of o ob = PHeap k /\ cs = a_cells b).
  Proof.
    intros st s o ob b HR H1 H2 (S1 & S2 & S3 & S4) Pos. unfold data_of. rewrite S1.
    destruct (layout_of (a_shape b)) as [E|Mx|B|] eqn:L.
    - exists (o_buf ob). cbn [region]. rewrite H1. repeat split; auto; rewrite S4; [apply firstn_all|lia].
    - exists (o_buf ob). cbn [region]. rewrite H1. repeat split; auto; rewrite S4; [apply firstn_all|lia].
    - destruct S4 as (S4 & S5 & S6). destruct (Z.leb_spec (Z.of_nat (a_size b)) B).
      + destruct S6 as [-> S6]. exists (o_buf ob). cbn [region]. rewrite H1, S4. repeat split; auto. lia.
      + destruct S6 as [k [-> S6]]. exists (a_cells b). cbn [region]. rewrite S6. repeat split; eauto. apply firstn_all.
    - destruct S4 as (S4 & S5). destruct (Nat.eqb_spec (a_size b) 0); [lia|].
      destruct S5 as [k [-> S6]]. exists (a_cells b). cbn [region]. rewrite S6. repeat split; eauto. apply firstn_all.
  Qed.

  Lemma load_spec : forall st s o ob b i, R st s -> nth_error (objs st) o = Some (Some ob) -> nth_error s o = Some (Some b) ->
    obj_rel (heap st) o ob b -> 0 <= i < Z.of_nat (length (a_cells b)) ->
    load (data_of o ob) i st = (st, match nth_error (a_cells b) (Z.to_nat i) with Some (Some v) => inl v | Some None => inr Indet | None => inr MemErr end).
  Proof.
    intros st s o ob b i HR H1 H2 H3 Hi. destruct (region_spec st s o ob b HR H1 H2 H3) as (cs & E1 & E2 & E3 & _); [lia|].
    unfold load. rewrite E1. destruct (Z.ltb_spec i 0); [lia|].
    assert (E : nth_error cs (Z.to_nat i) = nth_error (a_cells b) (Z.to_nat i)).
    { rewrite <- (nth_error_firstn cs (length (a_cells b)) cs) by lia. rewrite E2. reflexivity. }
    rewrite E. destruct (nth_error (a_cells b) (Z.to_nat i)) as [[v|]|]; reflexivity.
  Qed.

  Lemma obj_rel_heap : forall h h' o ob b, obj_rel h o ob b ->
    (forall k cs, data_of o ob = PHeap k -> nth_error h k = Some (Live cs) -> nth_error h' k = Some (Live cs)) -> obj_rel h' o ob b.
  Proof.
    intros h h' o ob b (S1 & S2 & S3 & S4) H. split; [|split; [|split]]; auto. unfold data_of in H. rewrite S1 in H.
    destruct (layout_of (a_shape b)) as [E|Mx|B|]; auto.
    - destruct S4 as (S4 & S5 & S6). split; [|split]; auto. destruct (Z.of_nat (a_size b) <=? B); auto.
      destruct S6 as [k [E1 E2]]. exists k. split; auto.
    - destruct S4 as (S4 & S5). split; auto. destruct (Nat.eqb (a_size b) 0); auto.
      destruct S5 as [k [E1 E2]]. exists k. split; auto.
  Qed.

  Lemma R_local : forall st s o ob b ob' b', R st s -> nth_error (objs st) o = Some (Some ob) -> nth_error s o = Some (Some b) ->
    obj_rel (heap st) o ob' b' -> data_of o ob' = data_of o ob -> on_heap (Some b') = on_heap (Some b) ->
    R (mk_state (heap st) (upd (objs st) o (Some ob'))) (upd s o (Some b')).
  Proof.
    intros st s o ob b ob' b' HR H1 H2 H3 H4 H5. pose proof (nth_error_lt _ _ _ _ H1) as L1. pose proof (nth_error_lt _ _ _ _ H2) as L2.
    split; cbn [heap objs].
    - rewrite !upd_length. apply (R_len _ _ HR).
    - intro o'. rewrite !nth_error_upd. destruct (Nat.eqb_spec o o') as [<-|N]; [|apply (R_dead _ _ HR)].
      rewrite (proj2 (Nat.ltb_lt _ _) L1), (proj2 (Nat.ltb_lt _ _) L2). split; discriminate.
    - intros o' ob1. rewrite !nth_error_upd. destruct (Nat.eqb_spec o o') as [<-|N].
      + rewrite (proj2 (Nat.ltb_lt _ _) L1), (proj2 (Nat.ltb_lt _ _) L2). intro E. injection E as <-. eauto.
      + apply (R_live _ _ HR).
    - intros o1 o2 ob1 ob2 k. rewrite !nth_error_upd, (proj2 (Nat.ltb_lt _ _) L1).
      destruct (Nat.eqb_spec o o1) as [<-|N1]; destruct (Nat.eqb_spec o o2) as [<-|N2]; auto.
      + intros E1 E2. injection E1 as <-. rewrite H4. apply (R_inj _ _ HR); auto.
      + intros E1 E2. injection E2 as <-. rewrite H4. apply (R_inj _ _ HR); auto.
      + apply (R_inj _ _ HR).
    - rewrite (R_count _ _ HR). pose proof (count_upd _ on_heap s o (Some b') _ H2) as C. rewrite H5 in C. lia.
  Qed.

  Lemma R_heap : forall st s o ob b k cs' b', R st s -> nth_error (objs st) o = Some (Some ob) -> nth_error s o = Some (Some b) ->
    data_of o ob = PHeap k -> (exists cs, nth_error (heap st) k = Some (Live cs)) ->
    obj_rel (upd (heap st) k (Live cs')) o ob b' -> on_heap (Some b') = on_heap (Some b) ->
    R (mk_state (upd (heap st) k (Live cs')) (objs st)) (upd s o (Some b')).
  Proof.
    intros st s o ob b k cs' b' HR H1 H2 H3 [cs Hk] H4 H5. pose proof (nth_error_lt _ _ _ _ H1) as L1. pose proof (nth_error_lt _ _ _ _ H2) as L2.
    split; cbn [heap objs].
    - rewrite !upd_length. apply (R_len _ _ HR).
    - intro o'. rewrite !nth_error_upd. destruct (Nat.eqb_spec o o') as [<-|N]; [|apply (R_dead _ _ HR)].
      rewrite H1, (proj2 (Nat.ltb_lt _ _) L2). split; discriminate.
    - intros o' ob1 E. rewrite !nth_error_upd. destruct (Nat.eqb_spec o o') as [<-|N].
      + rewrite (proj2 (Nat.ltb_lt _ _) L2). rewrite H1 in E. injection E as <-. eauto.
      + destruct (R_live _ _ HR o' ob1 E) as [b1 [E1 E2]]. exists b1. split; auto. apply (obj_rel_heap _ _ _ _ _ E2).
        intros k' cs1 Q1 Q2. rewrite nth_error_upd. destruct (Nat.eqb_spec k k') as [<-|]; auto.
        exfalso. apply N. apply (R_inj _ _ HR o o' ob ob1 k); auto.
    - apply (R_inj _ _ HR).
    - pose proof (count_upd _ on_heap s o (Some b') _ H2) as C. rewrite H5 in C.
      pose proof (count_upd _ is_live (heap st) k (Live cs') _ Hk) as C'. cbn [is_live] in C'. pose proof (R_count _ _ HR). lia.
  Qed.

  (** Same pointers before and after. *)
  Definition same_ptrs (st st' : state) : Prop :=
    length (objs st') = length (objs st) /\
    forall o, match nth_error (objs st) o, nth_error (objs st') o with
              | Some (Some ob), Some (Some ob') => data_of o ob' = data_of o ob
              | x, y => x = y
              end.
  Lemma same_ptrs_refl : forall st, same_ptrs st st.
  Proof. intro st. split; auto. intro o. destruct (nth_error (objs st) o) as [[ob|]|]; auto. Qed.
  Lemma same_ptrs_trans : forall a b c, same_ptrs a b -> same_ptrs b c -> same_ptrs a c.
  Proof.
    intros a b c [L1 H1] [L2 H2]. split; [congruence|]. intro o. specialize (H1 o). specialize (H2 o).
    destruct (nth_error (objs a) o) as [[ob|]|], (nth_error (objs b) o) as [[ob'|]|], (nth_error (objs c) o) as [[ob''|]|]; try congruence.
  Qed.
  Lemma same_ptrs_upd : forall st h o ob ob', nth_error (objs st) o = Some (Some ob) -> data_of o ob' = data_of o ob ->
    same_ptrs st (mk_state h (upd (objs st) o (Some ob'))).
  Proof.
    intros st h o ob ob' H1 H2. split; cbn [objs]; [apply upd_length|]. intro o'. rewrite nth_error_upd.
    destruct (Nat.eqb_spec o o') as [<-|N].
    - rewrite H1. rewrite (proj2 (Nat.ltb_lt _ _) (nth_error_lt _ _ _ _ H1)). assumption.
    - destruct (nth_error (objs st) o') as [[x|]|]; reflexivity.
  Qed.

  Definition with_cells (b : abuf) (cs : list cell) : abuf := mk_abuf (a_shape b) (a_size b) cs.

  Lemma store_spec : forall st s o ob b i v, R st s -> nth_error (objs st) o = Some (Some ob) -> nth_error s o = Some (Some b) ->
    0 <= i < Z.of_nat (length (a_cells b)) ->
    exists st', store (data_of o ob) i v st = (st', inl tt) /\ R st' (upd s o (Some (with_cells b (upd (a_cells b) (Z.to_nat i) (Some v))))) /\
      same_ptrs st st'.
  Proof.
    intros st s o ob b i v HR H1 H2 Hi.
    assert (H3 : obj_rel (heap st) o ob b). { destruct (R_live _ _ HR o ob H1) as [b' [E1 E2]]. rewrite H2 in E1. injection E1 as <-. exact E2. }
    destruct (region_spec st s o ob b HR H1 H2 H3) as (cs & E1 & E2 & E3 & E4); [lia|].
    unfold store. rewrite E1. destruct (Z.ltb_spec i 0); [lia|]. destruct (Z.leb_spec (Z.of_nat (length cs)) i); [lia|]. cbn [orb].
    eexists. split; [reflexivity|]. destruct H3 as (S1 & S2 & S3 & S4). destruct E4 as [E4|[k [E4 ->]]].
    - rewrite E4 in *. cbn [region set_region] in *. rewrite H1 in *. injection E1 as <-.
      assert (D : data_of o (mk_object (o_shape ob) (o_data ob) (o_size ob) (upd (o_buf ob) (Z.to_nat i) (Some v))) = data_of o ob) by reflexivity.
      split; [|apply same_ptrs_upd with (ob := ob); auto].
      apply R_local with (ob := ob) (b := b); auto.
      split; [|split; [|split]]; auto. cbn [with_cells a_shape a_size a_cells o_buf o_data].
      unfold data_of in E4. rewrite S1 in E4. destruct (layout_of (a_shape b)) as [E|Mx|B|].
      + rewrite S4. reflexivity.
      + rewrite S4. reflexivity.
      + destruct S4 as (S4 & S5 & S6). rewrite !upd_length. split; [|split]; auto.
        destruct (Z.of_nat (a_size b) <=? B).
        * destruct S6 as [S6 S7]. split; auto. rewrite firstn_upd, S7. reflexivity.
        * destruct S6 as [k [S6 _]]. rewrite S6 in E4. discriminate.
      + destruct S4 as (S4 & S5). rewrite E4 in S5. destruct (Nat.eqb (a_size b) 0); [discriminate|]. destruct S5 as [k [S5 _]]. discriminate.
    - rewrite E4 in *. cbn [region set_region] in *. assert (Hk : nth_error (heap st) k = Some (Live (a_cells b))).
      { destruct (nth_error (heap st) k) as [[c|]|]; congruence. }
      split.
      + apply R_heap with (ob := ob) (b := b); eauto. split; [|split; [|split]]; auto. cbn [with_cells a_shape a_size a_cells o_buf o_data].
        unfold data_of in E4. rewrite S1 in E4.
        assert (O : o_data ob = PHeap k -> owns (upd (heap st) k (Live (upd (a_cells b) (Z.to_nat i) (Some v)))) (o_data ob) (upd (a_cells b) (Z.to_nat i) (Some v))).
        { intro Q. exists k. split; auto. apply nth_error_upd_same. apply (nth_error_lt _ _ _ _ Hk). }
        destruct (layout_of (a_shape b)) as [E|Mx|B|]; try discriminate.
        * destruct S4 as (S4 & S5 & S6). rewrite !upd_length. split; [|split]; auto.
          destruct (Z.of_nat (a_size b) <=? B); auto. destruct S6 as [S6 _]. congruence.
        * destruct S4 as (S4 & S5). rewrite !upd_length. split; auto. destruct (Nat.eqb (a_size b) 0); try congruence; auto.
      + split; auto. intro o'. cbn [objs]. destruct (nth_error (objs st) o') as [[x|]|]; auto.
  Qed.

  (** *** New and dying objects *)
  Lemma R_push_dead : forall st s, R st s -> R (mk_state (heap st) (objs st ++ [None])) (s ++ [None]).
  Proof.
    intros st s HR. pose proof (R_len _ _ HR) as L. split; cbn [heap objs].
    - rewrite !app_length, L. reflexivity.
    - intro o. rewrite !nth_error_snoc, L. destruct (Nat.eqb o (length s)); [split; auto|apply (R_dead _ _ HR)].
    - intros o ob. rewrite !nth_error_snoc, L. destruct (Nat.eqb o (length s)); [discriminate|]. apply (R_live _ _ HR).
    - intros o1 o2 ob1 ob2 k. rewrite !nth_error_snoc, L.
      destruct (Nat.eqb o1 (length s)); [discriminate|]. destruct (Nat.eqb o2 (length s)); [discriminate|]. apply (R_inj _ _ HR).
    - rewrite count_snoc. cbn. rewrite (R_count _ _ HR). lia.
  Qed.

  Lemma R_push_plain : forall st s ob b, R st s -> obj_rel (heap st) (length s) ob b ->
    (forall k, data_of (length s) ob <> PHeap k) -> on_heap (Some b) = false ->
    R (mk_state (heap st) (objs st ++ [Some ob])) (s ++ [Some b]).
  Proof.
    intros st s ob b HR H1 H2 H3. pose proof (R_len _ _ HR) as L. split; cbn [heap objs].
    - rewrite !app_length, L. reflexivity.
    - intro o. rewrite !nth_error_snoc, L. destruct (Nat.eqb o (length s)); [split; discriminate|apply (R_dead _ _ HR)].
    - intros o ob1. rewrite !nth_error_snoc, L. destruct (Nat.eqb_spec o (length s)) as [->|N]; [|apply (R_live _ _ HR)].
      intro E. injection E as <-. eauto.
    - intros o1 o2 ob1 ob2 k. rewrite !nth_error_snoc, L.
      destruct (Nat.eqb_spec o1 (length s)) as [->|N1]; [intros E _ E2; injection E as <-; destruct (H2 k E2)|].
      destruct (Nat.eqb_spec o2 (length s)) as [->|N2]; [intros _ E _ E2; injection E as <-; destruct (H2 k E2)|]. apply (R_inj _ _ HR).
    - rewrite count_snoc, H3. rewrite (R_count _ _ HR). lia.
  Qed.

  Lemma R_push_heap : forall st s ob b cs, R st s -> obj_rel (heap st ++ [Live cs]) (length s) ob b ->
    data_of (length s) ob = PHeap (length (heap st)) -> on_heap (Some b) = true ->
    R (mk_state (heap st ++ [Live cs]) (objs st ++ [Some ob])) (s ++ [Some b]).
  Proof.
    intros st s ob b cs HR H1 H2 H3. pose proof (R_len _ _ HR) as L.
    assert (F : forall o ob1 k, nth_error (objs st) o = Some (Some ob1) -> data_of o ob1 = PHeap k -> (k < length (heap st))%nat).
    { intros o ob1 k E1 E2. destruct (R_live _ _ HR o ob1 E1) as [b1 [_ (S1 & S2 & S3 & S4)]]. unfold data_of in E2. rewrite S1 in E2.
      destruct (layout_of (a_shape b1)) as [E|Mx|B|]; try discriminate.
      - destruct S4 as (_ & _ & S4). destruct (Z.of_nat (a_size b1) <=? B); [destruct S4; congruence|].
        destruct S4 as [k' [Q1 Q2]]. assert (k' = k) by congruence. subst. apply (nth_error_lt _ _ _ _ Q2).
      - destruct S4 as (_ & S4). destruct (Nat.eqb (a_size b1) 0); [congruence|].
        destruct S4 as [k' [Q1 Q2]]. assert (k' = k) by congruence. subst. apply (nth_error_lt _ _ _ _ Q2). }
    split; cbn [heap objs].
    - rewrite !app_length, L. reflexivity.
    - intro o. rewrite !nth_error_snoc, L. destruct (Nat.eqb o (length s)); [split; discriminate|apply (R_dead _ _ HR)].
    - intros o ob1. rewrite !nth_error_snoc, L. destruct (Nat.eqb_spec o (length s)) as [->|N].
      + intro E. injection E as <-. eauto.
      + intro E. destruct (R_live _ _ HR o ob1 E) as [b1 [E1 E2]]. exists b1. split; auto. apply (obj_rel_heap _ _ _ _ _ E2).
        intros k cs' _ Q. rewrite nth_error_app1; auto. apply (nth_error_lt _ _ _ _ Q).
    - intros o1 o2 ob1 ob2 k. rewrite !nth_error_snoc, L.
      destruct (Nat.eqb_spec o1 (length s)) as [->|N1]; destruct (Nat.eqb_spec o2 (length s)) as [->|N2]; auto.
      + intros E1 E2 Q1 Q2. injection E1 as <-. pose proof (F _ _ _ E2 Q2). rewrite H2 in Q1. injection Q1 as <-. lia.
      + intros E1 E2 Q1 Q2. injection E2 as <-. pose proof (F _ _ _ E1 Q1). rewrite H2 in Q2. injection Q2 as <-. lia.
      + apply (R_inj _ _ HR).
    - rewrite !count_snoc, H3. cbn [is_live]. rewrite (R_count _ _ HR). lia.
  Qed.

  Lemma on_heap_ptr : forall h o ob b, obj_rel h o ob b ->
    if on_heap (Some b) then exists k, data_of o ob = PHeap k /\ nth_error h k = Some (Live (a_cells b)) else forall k, data_of o ob <> PHeap k.
  Proof.
    intros h o ob b (S1 & S2 & S3 & S4). pose proof (layout_cases _ S2) as L. unfold on_heap, uses_heap, data_of. rewrite S1.
    destruct (layout_of (a_shape b)) as [E|Mx|B|].
    - destruct L as (_ & _ & ->). discriminate.
    - destruct L as (-> & _). discriminate.
    - destruct L as (-> & P). destruct S4 as (_ & _ & S4). cbn [heap_limit]. change (-1 =? -1) with true. cbn iota.
      rewrite Z.max_r by lia. destruct (Z.leb_spec (Z.of_nat (a_size b)) B); destruct (Z.ltb_spec B (Z.of_nat (a_size b))); try lia.
      + destruct S4. congruence.
      + destruct S4 as [k S4]. eauto.
    - destruct L as (_ & -> & _). destruct S4 as (_ & S4). destruct (Nat.eqb_spec (a_size b) 0); destruct (Z.ltb_spec 0 (Z.of_nat (a_size b))); try lia.
      + congruence.
      + destruct S4 as [k S4]. eauto.
  Qed.

  Lemma R_kill : forall st s o ob b, R st s -> nth_error (objs st) o = Some (Some ob) -> nth_error s o = Some (Some b) ->
    forall h', (forall o' ob', o' <> o -> nth_error (objs st) o' = Some (Some ob') -> forall k cs, data_of o' ob' = PHeap k ->
       nth_error (heap st) k = Some (Live cs) -> nth_error h' k = Some (Live cs)) ->
    (length (filter is_live h') + (if on_heap (Some b) then 1 else 0) = length (filter is_live (heap st)))%nat ->
    R (mk_state h' (upd (objs st) o None)) (upd s o None).
  Proof.
    intros st s o ob b HR H1 H2 h' H3 H4. pose proof (nth_error_lt _ _ _ _ H1) as L1. pose proof (nth_error_lt _ _ _ _ H2) as L2.
    split; cbn [heap objs].
    - rewrite !upd_length. apply (R_len _ _ HR).
    - intro o'. rewrite !nth_error_upd. destruct (Nat.eqb_spec o o') as [<-|N]; [|apply (R_dead _ _ HR)].
      rewrite (proj2 (Nat.ltb_lt _ _) L1), (proj2 (Nat.ltb_lt _ _) L2). split; auto.
    - intros o' ob1. rewrite !nth_error_upd. destruct (Nat.eqb_spec o o') as [<-|N].
      + rewrite (proj2 (Nat.ltb_lt _ _) L1). discriminate.
      + intro E. destruct (R_live _ _ HR o' ob1 E) as [b1 [E1 E2]]. exists b1. split; auto. apply (obj_rel_heap _ _ _ _ _ E2).
        intros k cs Q1 Q2. apply (H3 o' ob1 ltac:(auto) E k cs); auto.
    - intros o1 o2 ob1 ob2 k. rewrite !nth_error_upd, (proj2 (Nat.ltb_lt _ _) L1).
      destruct (Nat.eqb_spec o o1) as [<-|N1]; [discriminate|]. destruct (Nat.eqb_spec o o2) as [<-|N2]; [discriminate|]. apply (R_inj _ _ HR).
    - pose proof (count_upd _ on_heap s o None _ H2) as C. cbn [on_heap] in C. cbn [on_heap] in H4. pose proof (R_count _ _ HR). lia.
  Qed.

  Lemma destroy_spec : forall st s o b, R st s -> nth_error s o = Some (Some b) ->
    exists st', destroy_base o st = (st', inl tt) /\ R st' (upd s o None).
  Proof.
    intros st s o b HR H2. destruct (R_abs st s o b HR H2) as [ob [H1 H3]]. pose proof (on_heap_ptr _ _ _ _ H3) as P.
    unfold destroy_base, bindM, get_obj. rewrite H1. cbn iota.
    destruct H3 as (S1 & S2 & S3 & S4). rewrite S1. unfold data_of in P. rewrite S1 in P. cbn [on_heap] in P.
    assert (F : forall h', (uses_heap (a_shape b) (Z.of_nat (a_size b)) = false -> h' = heap st) ->
      (uses_heap (a_shape b) (Z.of_nat (a_size b)) = true -> exists k, data_of o ob = PHeap k /\ nth_error (heap st) k = Some (Live (a_cells b)) /\ h' = upd (heap st) k Freed) ->
      R (mk_state h' (upd (objs st) o None)) (upd s o None)).
    { intros h' F1 F2. apply R_kill with (ob := ob) (b := b); auto.
      - intros o' ob' N E k cs Q1 Q2. destruct (uses_heap (a_shape b) (Z.of_nat (a_size b))).
        + destruct (F2 eq_refl) as (k' & G1 & G2 & ->). rewrite nth_error_upd. destruct (Nat.eqb_spec k' k) as [->|]; auto.
          exfalso. apply N. apply (R_inj _ _ HR o' o ob' ob k); auto.
        + rewrite (F1 eq_refl). assumption.
      - cbn [on_heap]. destruct (uses_heap (a_shape b) (Z.of_nat (a_size b))).
        + destruct (F2 eq_refl) as (k' & G1 & G2 & ->). pose proof (count_upd _ is_live (heap st) k' Freed _ G2) as C. cbn [is_live] in C. lia.
        + rewrite (F1 eq_refl). lia. }
    assert (D : data_of o ob = match layout_of (a_shape b) with LStatic _ | LFixed _ => PObj o | _ => o_data ob end) by (unfold data_of; rewrite S1; reflexivity).
    destruct (layout_of (a_shape b)) as [E|Mx|B|].
    - eexists. split; [reflexivity|]. cbn [heap objs]. apply F; auto. intro U. rewrite U in P. destruct P as [k [Q _]]. discriminate.
    - eexists. split; [reflexivity|]. cbn [heap objs]. apply F; auto. intro U. rewrite U in P. destruct P as [k [Q _]]. discriminate.
    - destruct S4 as (_ & _ & S4). destruct (Z.of_nat (a_size b) <=? B).
      + destruct S4 as [S4 _]. rewrite S4. cbn [ptr_eqb]. rewrite Nat.eqb_refl. cbn [negb ret]. eexists. split; [reflexivity|]. cbn [heap objs].
        apply F; auto. intro U. rewrite U in P. destruct P as [k [Q _]]. congruence.
      + destruct S4 as [k [S4 S5]]. rewrite S4 in *. cbn [ptr_eqb negb delete_array]. rewrite S5. eexists. split; [reflexivity|]. cbn [heap objs].
        apply F; [|intros _; exists k; auto]. intro U. rewrite U in P. destruct (P k eq_refl).
    - destruct S4 as (_ & S4). destruct (Nat.eqb (a_size b) 0).
      + rewrite S4 in *. cbn [delete_array]. eexists. split; [reflexivity|]. cbn [heap objs].
        apply F; auto. intro U. rewrite U in P. destruct P as [k [Q _]]. congruence.
      + destruct S4 as [k [S4 S5]]. rewrite S4 in *. cbn [delete_array]. rewrite S5. eexists. split; [reflexivity|]. cbn [heap objs].
        apply F; [|intros _; exists k; auto]. intro U. rewrite U in P. destruct (P k eq_refl).
  Qed.

  (** What the base class constructors produce. *)
  Definition base_buf (sh : shape) (n : Z) : abuf :=
    match layout_of sh with
    | LStatic E => mk_abuf sh (Z.to_nat E) (repeat (Some v0) (Z.to_nat E))
    | LFixed Mx => mk_abuf sh (Z.to_nat n) (repeat (Some v0) (Z.to_nat Mx))
    | _ => mk_abuf sh (Z.to_nat n) (repeat (new_cell v0 trivial sh n) (Z.to_nat n))
    end.

  Lemma firstn_repeat : forall A (x : A) n m, (n <= m)%nat -> firstn n (repeat x m) = repeat x n.
  Proof. induction n as [|n IH]; intros m H; [reflexivity|]. destruct m; [lia|]. cbn. f_equal. apply IH. lia. Qed.

  Lemma new_cell_heap : forall sh n, sensible sh -> layout_of sh = LHeap -> new_cell v0 trivial sh n = Some v0.
  Proof.
    intros sh n H L. pose proof (layout_cases sh H) as C. rewrite L in C. destruct C as ((E & Mx & ->) & _ & C).
    unfold new_cell. cbn [shape_extent] in C. destruct E as [|p|p]; try reflexivity. destruct p; try reflexivity.
    destruct (C eq_refl) as [Mx' [Q Hm]]. injection Q as <-. destruct (Z.ltb_spec 0 Mx); [lia|]. rewrite andb_false_r. reflexivity.
  Qed.

  Lemma construct_base_spec : forall st s sh n avail, R st s -> sensible sh -> 0 <= n < 2 ^ 64 ->
    exists st', R st' (s ++ [if heap_fails sh n avail then None else Some (base_buf sh n)]) /\
      construct_base v0 trivial sh n avail st = (st', if heap_fails sh n avail then inr Thrown else inl (length s)).
  Proof.
    intros st s sh n avail HR Hs Hn. pose proof (layout_cases sh Hs) as L. pose proof (R_len _ _ HR) as Len.
    unfold construct_base, heap_fails, base_buf. unfold bindM at 1, next_obj. destruct (layout_of sh) as [E|Mx|B|] eqn:LE.
    - destruct L as (L1 & L2 & L3). assert (U : uses_heap sh n = false) by (unfold uses_heap; rewrite L3; reflexivity). rewrite U. cbn [andb].
      eexists. split; [|unfold push_obj; rewrite Len; reflexivity]. apply R_push_plain; auto.
      + split; [|split; [|split]]; auto; cbn [a_shape a_size a_cells o_buf o_size].
        * unfold size_of. cbn [o_shape]. rewrite LE. lia.
        * rewrite LE. reflexivity.
      + unfold data_of. cbn [o_shape]. rewrite LE. discriminate.
      + cbn [on_heap a_shape]. unfold uses_heap. rewrite L3. reflexivity.
    - destruct L as (-> & L2). cbn [uses_heap heap_limit andb].
      eexists. split; [|unfold push_obj; rewrite Len; reflexivity]. apply R_push_plain; auto.
      + split; [|split; [|split]]; auto; cbn [a_shape a_size a_cells o_buf o_size].
        * unfold size_of. cbn [o_shape o_size]. rewrite LE. lia.
        * rewrite LE. reflexivity.
      + unfold data_of. cbn [o_shape]. rewrite LE. discriminate.
    - destruct L as (-> & L2). rewrite cast_size by lia.
      assert (HL : uses_heap (Buffer (-1) B) n = (B <? n)). { unfold uses_heap. cbn [heap_limit]. change (-1 =? -1) with true. cbn iota. rewrite Z.max_r by lia. reflexivity. }
      rewrite HL. destruct (Z.leb_spec n B); destruct (Z.ltb_spec B n); try lia; cbn [andb].
      + eexists. split; [|unfold push_obj; rewrite Len; reflexivity]. apply R_push_plain; auto.
        * split; [|split; [|split]]; auto; cbn [a_shape a_size a_cells o_buf o_size o_data].
          -- unfold size_of. cbn [o_shape o_size]. rewrite LE. lia.
          -- rewrite LE. rewrite repeat_length. split; auto. unfold default_init. rewrite repeat_length. split; auto.
             destruct (Z.leb_spec (Z.of_nat (Z.to_nat n)) B); [|lia]. split; auto.
             rewrite firstn_repeat by lia. f_equal. cbn [new_cell]. destruct (Z.ltb_spec 0 B); [|lia]. destruct (Z.leb_spec n B); [|lia].
             rewrite !andb_true_r. reflexivity.
        * unfold data_of. cbn [o_shape o_data]. rewrite LE. discriminate.
        * cbn [on_heap a_shape a_size]. rewrite Z2Nat.id by lia. unfold uses_heap. cbn [heap_limit]. change (-1 =? -1) with true. cbn iota.
          rewrite Z.max_r by lia. apply Z.ltb_ge. lia.
      + unfold unwind, bindM, new_array. destruct (avail && (n <? 2 ^ 63)) eqn:A; cbn [negb].
        * unfold push_obj. cbn [objs heap]. eexists. split; [|rewrite Len; reflexivity]. apply R_push_heap; auto.
          -- split; [|split; [|split]]; auto; cbn [a_shape a_size a_cells o_buf o_size o_data].
             ++ unfold size_of. cbn [o_shape o_size]. rewrite LE. lia.
             ++ rewrite LE. rewrite repeat_length. split; auto. unfold default_init. rewrite repeat_length. split; auto.
                destruct (Z.leb_spec (Z.of_nat (Z.to_nat n)) B); [lia|]. exists (length (heap st)). split; auto.
                rewrite nth_error_snoc, Nat.eqb_refl. cbn [new_cell]. destruct (Z.leb_spec n B); [lia|]. rewrite andb_false_r. reflexivity.
          -- unfold data_of. cbn [o_shape o_data]. rewrite LE. reflexivity.
          -- cbn [on_heap a_shape a_size]. rewrite Z2Nat.id by lia. unfold uses_heap. cbn [heap_limit]. change (-1 =? -1) with true. cbn iota.
             rewrite Z.max_r by lia. apply Z.ltb_lt. lia.
        * unfold push_obj, ret, fail. eexists. split; [|reflexivity]. apply R_push_dead. assumption.
    - destruct L as ((E & Mx & Sh) & L2 & L3).
      assert (HL : forall m, uses_heap sh m = (0 <? m)) by (intro; unfold uses_heap; rewrite L2; reflexivity). rewrite HL, Z.gtb_ltb.
      rewrite (new_cell_heap sh n Hs LE).
      destruct (Z.ltb_spec 0 n); cbn [andb].
      + unfold unwind, bindM, new_array. destruct (avail && (n <? 2 ^ 63)) eqn:A; cbn [negb].
        * unfold push_obj. cbn [objs heap]. eexists. split; [|rewrite Len; reflexivity]. apply R_push_heap; auto.
          -- split; [|split; [|split]]; auto; cbn [a_shape a_size a_cells o_buf o_size o_data].
             ++ unfold size_of. cbn [o_shape o_size]. rewrite LE. lia.
             ++ rewrite LE. rewrite repeat_length. split; auto.
                destruct (Nat.eqb_spec (Z.to_nat n) 0); [lia|]. exists (length (heap st)). split; auto.
                rewrite nth_error_snoc, Nat.eqb_refl. reflexivity.
          -- unfold data_of. cbn [o_shape o_data]. rewrite LE. reflexivity.
          -- cbn [on_heap a_shape a_size]. rewrite HL. apply Z.ltb_lt. lia.
        * unfold push_obj, ret, fail. eexists. split; [|reflexivity]. apply R_push_dead. assumption.
      + assert (n = 0) by lia. subst n. unfold unwind, bindM, ret, push_obj. eexists. split; [|rewrite Len; reflexivity]. apply R_push_plain; auto.
        * split; [|split; [|split]]; auto; cbn [a_shape a_size a_cells o_buf o_size o_data].
          -- unfold size_of. cbn [o_shape o_size]. rewrite LE. lia.
          -- rewrite LE. cbn. auto.
        * unfold data_of. cbn [o_shape o_data]. rewrite LE. discriminate.
        * cbn [on_heap a_shape a_size]. rewrite HL. reflexivity.
  Qed.
End Sim.
