(** C82: every element of a buffer is constructed once and destroyed once, whatever throws. *)

From Coq Require Import ZArith Arith Bool Lia List.
From Verif Require Import Base ExpandModel ExpandSpec BufferModel BufferSpec BufferProofs LifeModel LifeSpec LifeProofs.
Import ListNotations.
Local Open Scope Z_scope.

Lemma reachable_inv : forall oracle st, reachable oracle st -> Inv st.
Proof. intros oracle st (h & Hh & ->). exact (proj1 (run_keeps oracle h initial Inv_initial Hh)). Qed.

(** The examples: a fixed_buffer<T, -1, 4>, a buffer<T, -1, 2> whose elements do not fit into the object, and a copy of it;
    the third element of the copy throws when it is assigned to. *)
Definition size_of_3 : size_arg := mk_size int32 false 3.
Definition sample : list op :=
  [ONew (FixedBuffer (-1) 4) size_of_3; ONew (Buffer (-1) 2) size_of_3; OCopy 1; OFromArray (FixedBuffer (-1) 4) 2; OAssign 0 3; OAccess 1 2 true;
   ODestroy 1; ODestroy 0; ODestroy 3].
Lemma sample_ok : Forall op_ok sample.
Proof.
  assert (P : proper_size size_of_3) by (repeat split; cbn; try lia; try discriminate).
  repeat constructor; cbn; try lia; exact P.
Qed.
Definition late : nat -> bool := fun n => Nat.eqb n 18.

(** No element is constructed twice, used or destroyed when it does not exist, and no memory is released twice or while
    elements in it are alive. *)
Theorem C82_safe : forall oracle h, Forall op_ok h -> ~ In (inr LifeErr) (snd (run oracle h initial)).
Proof. intros oracle h Hh. exact (proj2 (run_keeps oracle h initial Inv_initial Hh)). Qed.
Print Assumptions C82_safe.
Example C82_safe_example : Forall op_ok sample /\
  snd (run late sample initial) =
    [inl (Some 0%nat); inl (Some 1%nat); inr Thrown; inl (Some 3%nat); inl None; inl None; inl None; inl None; inl None].
Proof. split; [exact sample_ok|]. vm_compute. reflexivity. Qed.

(** Constructor and destructor calls differ by the numbers of elements in the buffers that exist. *)
Theorem C82_balanced : forall oracle st, reachable oracle st -> made st = (gone st + total st)%nat.
Proof. intros oracle st H. apply reachable_inv in H. destruct H as (_ & _ & _ & N). unfold net in N. lia. Qed.
Print Assumptions C82_balanced.
Example C82_balanced_example :
  let st := fst (run late (firstn 6 sample) initial) in made st = 18%nat /\ gone st = 5%nat /\ total st = 13%nat.
Proof. vm_compute. auto. Qed.

(** When all buffers have been destroyed, so have all elements, and all memory has been released. *)
Theorem C82_all_destroyed : forall oracle st, reachable oracle st -> (forall o, live st o = None) ->
  made st = gone st /\ forall r g, nth_error (regions st) r <> Some (Some g).
Proof.
  intros oracle st H L. pose proof (C82_balanced oracle st H) as B. apply reachable_inv in H. destruct H as (_ & _ & I3 & _). split.
  - replace (total st) with 0%nat in B; [lia|]. symmetry. unfold total.
    assert (Z0 : forall l, (forall o, match nth_error l o with Some (Some ob) => Some ob | _ => None end = @None object) ->
      list_sum (map (fun x => match x with Some ob => held_by ob | None => 0%nat end) l) = 0%nat).
    { induction l as [|x l IH]; intro Hl; [reflexivity|]. cbn. pose proof (Hl 0%nat) as H0. cbn in H0. destruct x; [discriminate|].
      apply IH. intro o. exact (Hl (S o)). }
    apply Z0. exact L.
  - intros r g E. destruct (I3 r) as (o & ob & Lo & _); [unfold reg; rewrite E; discriminate|]. rewrite L in Lo. discriminate.
Qed.
Print Assumptions C82_all_destroyed.
Example C82_all_destroyed_example :
  let st := fst (run late sample initial) in reachable late st /\ (forall o, live st o = None) /\ made st = 18%nat /\ length (regions st) = 6%nat.
Proof.
  cbv zeta. split; [exists sample; split; [exact sample_ok|reflexivity]|]. split; [|vm_compute; auto].
  intro o. unfold live. replace (objs _) with [@None object; None; None; None] by (vm_compute; reflexivity).
  do 4 (destruct o as [|o]; [reflexivity|]). destruct o; reflexivity.
Qed.

(** An operation that fails leaves all buffers as they are, destroys what it has constructed, and keeps no memory. *)
Theorem C82_failed : forall oracle st c st' e, reachable oracle st -> op_ok c -> step oracle c st = (st', inr e) ->
  (forall o, live st' o = live st o) /\ (made st' + gone st = made st + gone st')%nat /\
  (forall r g, nth_error (regions st') r = Some (Some g) <-> nth_error (regions st) r = Some (Some g)).
Proof.
  intros oracle st c st' e H Hc E. apply reachable_inv in H. destruct (step_keeps oracle c st H Hc) as (st1 & r & E1 & _ & _ & U).
  rewrite E in E1. inversion E1; subst st1 r. destruct (U e eq_refl) as (L & R & N & _). split; [exact L|]. split; [unfold net in N; lia|].
  intros r g. specialize (R r). unfold reg in R. destruct (nth_error (regions st') r); destruct (nth_error (regions st) r); split; intro; congruence.
Qed.
Print Assumptions C82_failed.
Example C82_failed_example :
  let st := fst (run late (firstn 2 sample) initial) in
  let (st', r) := step late (OCopy 1) st in
  r = inr Thrown /\ made st = 9%nat /\ made st' = 14%nat /\ gone st' = 5%nat.
Proof. vm_compute. auto. Qed.

(** Destroying a buffer never fails, and destroys exactly its elements. *)
Theorem C82_destroy : forall oracle st o ob, reachable oracle st -> live st o = Some ob ->
  exists st', step oracle (ODestroy o) st = (st', inl None) /\ made st' = made st /\ gone st' = (gone st + held_by ob)%nat /\
    forall o', live st' o' = if Nat.eqb o' o then None else live st o'.
Proof.
  intros oracle st o ob H L. apply reachable_inv in H. destruct H as (I1 & _). destruct (I1 _ _ L) as [W _].
  destruct (destroy_base_spec o ob st L W) as (st' & E & D). exists st'. split; [cbn [step]; rewrite (bind_inl _ _ _ _ _ _ _ E); reflexivity|].
  pose proof (fun o' => live_removed _ _ _ _ o' L D) as Lr. destruct D as (_ & _ & N & Md). unfold net in N. split; [exact Md|]. split; [lia|exact Lr].
Qed.
Print Assumptions C82_destroy.
Example C82_destroy_example :
  let st := fst (run late (firstn 2 sample) initial) in
  exists ob, live st 1 = Some ob /\ held_by ob = 5%nat /\ gone (fst (step late (ODestroy 1) st)) = 5%nat.
Proof. vm_compute. eexists. repeat split. Qed.

(** A new buffer has the size it is asked for, and all its elements are new. *)
Theorem C82_created : forall oracle st c st' o, reachable oracle st -> op_ok c -> step oracle c st = (st', inl (Some o)) ->
  exists ob, wanted st c = Some (o_shape ob, size_of ob) /\ live st o = None /\
    (forall o', live st' o' = if Nat.eqb o' o then Some ob else live st o') /\
    (made st' + gone st = made st + gone st' + held (o_shape ob) (size_of ob))%nat.
Proof.
  intros oracle st c st' o H Hc E. apply reachable_inv in H.
  assert (Q : forall m sh n, creates m sh n st -> bindM m (fun o => ret (Some o)) st = (st', inl (Some o)) ->
    exists ob, Some (sh, n) = Some (o_shape ob, size_of ob) /\ live st o = None /\
    (forall o', live st' o' = if Nat.eqb o' o then Some ob else live st o') /\
    (made st' + gone st = made st + gone st' + held (o_shape ob) (size_of ob))%nat).
  { intros m sh n (st1 & [(e & E1 & _)|(o1 & ob & E1 & S1 & N1 & H1 & A1 & _)]) E2.
    - rewrite (bind_inr _ _ _ _ _ _ _ E1) in E2. discriminate.
    - rewrite (bind_inl _ _ _ _ _ _ _ E1) in E2. unfold ret in E2. inversion E2; subst st1 o1. exists ob.
      split; [congruence|]. split; [|split].
      + destruct A1 as (-> & _). apply live_fresh.
      + intro o'. exact (live_added _ _ _ _ o' A1).
      + destruct A1 as (_ & _ & _ & _ & _ & N). unfold net in N. rewrite S1, N1, <- H1. lia. }
  assert (CP : forall src, bindM (copy_construct oracle src) (fun o => ret (Some o)) st = (st', inl (Some o)) ->
    exists ob, match live st src with Some ob => Some (o_shape ob, size_of ob) | None => None end = Some (o_shape ob, size_of ob) /\ live st o = None /\
    (forall o', live st' o' = if Nat.eqb o' o then Some ob else live st o') /\
    (made st' + gone st = made st + gone st' + held (o_shape ob) (size_of ob))%nat).
  { intros src E1. destruct (get_obj_live st src) as [(rhs & L & G)|(L & G)]; rewrite L.
    - destruct H as (I1 & _). destruct (I1 _ _ L) as [W F]. exact (Q _ _ _ (copy_creates oracle src rhs st L W F) E1).
    - unfold copy_construct in E1. rewrite (bind_inr _ _ _ _ _ _ _ (bind_inr _ _ _ _ _ _ _ G)) in E1. discriminate. }
  destruct c as [sh a|sh len|src|src|dst src|o1 len|o1 i as_|o1]; cbn [op_ok] in Hc; cbn [step] in E; cbv zeta beta in E; cbn [wanted];
    try (exfalso; unfold bindM at 1 in E;
         match type of E with (match ?x with _ => _ end) = _ => destruct x as [? [?|?]] end; unfold ret in E; inversion E; fail).
  - destruct Hc as [H1 H2]. exact (Q _ _ _ (construct_creates oracle sh a st H1 H2) E).
  - destruct Hc as (H1 & H2 & H3). exact (Q _ _ _ (array_creates oracle sh len st H1 H2 H3) E).
  - exact (CP src E).
  - exact (CP src E).
Qed.
Print Assumptions C82_created.
Example C82_created_example :
  let st := fst (run late (firstn 1 sample) initial) in
  let (st', r) := step late (ONew (Buffer (-1) 2) size_of_3) st in
  r = inl (Some 1%nat) /\ made st = 4%nat /\ made st' = 9%nat /\ held (Buffer (-1) 2) 3 = 5%nat.
Proof. vm_compute. auto. Qed.

(** If nothing throws, buffers of all admissible sizes can be created. *)
Theorem C82_succeeds : forall oracle st sh a, (forall n, oracle n = false) -> sensible sh -> proper_size a -> admissible sh (sa_value a) ->
  exists st' o, step oracle (ONew sh a) st = (st', inl (Some o)).
Proof.
  intros oracle st sh a Hn Hs Ha Ad. destruct (construct_succeeds oracle Hn sh a st Hs Ha Ad) as (st' & o & E).
  exists st', o. cbn [step]. rewrite (bind_inl _ _ _ _ _ _ _ E). reflexivity.
Qed.
Print Assumptions C82_succeeds.
Example C82_succeeds_example : sensible (Buffer (-1) 2) /\ admissible (Buffer (-1) 2) 3 /\ admissible (FixedBuffer 3 4) 3 /\ ~ admissible (FixedBuffer (-1) 2) 3.
Proof. unfold admissible. cbn. repeat split; lia. Qed.

(** All elements of a buffer can be used. *)
Theorem C82_accessible : forall oracle st o ob i, reachable oracle st -> live st o = Some ob -> 0 <= i < size_of ob ->
  step oracle (OAccess o i false) st = (st, inl None).
Proof.
  intros oracle st o ob i H L Hi. apply reachable_inv in H. destruct H as (I1 & _). destruct (I1 _ _ L) as [W F].
  pose proof (data_alive _ _ W F) as A. cbn [step]. unfold access. rewrite (bind_inl _ _ _ _ st st tt); [reflexivity|].
  rewrite (bind_inl _ _ _ _ st st ob) by (unfold get_obj; rewrite (live_nth _ _ _ L); reflexivity).
  destruct (Z.leb_spec 0 i); [|lia]. destruct (Z.ltb_spec i (size_of ob)); [|lia]. cbn [andb].
  destruct (data_of ob) as [r|]; cbn [alive at_data] in *; [|lia]. destruct A as (k & m & Fr & Lm). apply (use_cell_alive _ _ k m _ Fr). lia.
Qed.
Print Assumptions C82_accessible.
Example C82_accessible_example :
  let st := fst (run late (firstn 2 sample) initial) in
  exists ob, live st 1 = Some ob /\ size_of ob = 3 /\ snd (step late (OAccess 1 2 false) st) = inl None /\ snd (step late (OAccess 1 3 false) st) = inr Misuse.
Proof. vm_compute. eexists. repeat split. Qed.

(** Assignment and access construct and destroy no elements, whether they throw or not. *)
Theorem C82_assigned : forall oracle st c st' r, reachable oracle st -> op_ok c ->
  match c with OAssign _ _ | OAssignArray _ _ | OAccess _ _ _ => True | _ => False end ->
  step oracle c st = (st', r) ->
  made st' = made st /\ gone st' = gone st /\
  forall o, match live st o, live st' o with Some a, Some b => o_shape a = o_shape b /\ held_by a = held_by b | None, None => True | _, _ => False end.
Proof.
  intros oracle st c st' r H Hc Hk E. apply reachable_inv in H.
  assert (T : forall (m : M unit), bindM m (fun _ => ret (@None nat)) st = (st', r) -> fst (m st) = st').
  { intros m Em. unfold bindM in Em. destruct (m st) as [s [u|e]]; [unfold ret in Em|]; inversion Em; reflexivity. }
  assert (TT : forall m, keeps_made m -> touches m st -> bindM m (fun _ => ret (@None nat)) st = (st', r) ->
    made st' = made st /\ gone st' = gone st /\
    forall o, match live st o, live st' o with Some a, Some b => o_shape a = o_shape b /\ held_by a = held_by b | None, None => True | _, _ => False end).
  { intros m Km (st1 & r1 & E1 & _ & U) Em. pose proof (T m Em) as Es. specialize (Km st). rewrite E1 in *. cbn [fst] in *. subst st1.
    apply unaltered_of in U. destruct U as (L & _ & N & _). unfold net in N. split; [exact Km|]. split; [lia|].
    intro o. rewrite L. destruct (live st o); auto. }
  destruct c as [sh a|sh len|src|src|dst src|o1 len|o1 i as_|o1]; try contradiction; cbn [step op_ok] in *; cbv zeta beta in E.
  - destruct (copy_assign_spec oracle dst src st H) as (st1 & r1 & E1 & _ & _ & N & S1 & _).
    pose proof (T _ E) as Es. pose proof (made_copy_assign oracle dst src st) as Km. rewrite E1 in *. cbn [fst] in *. subst st1.
    unfold net in N. split; [exact Km|]. split; [lia|exact S1].
  - exact (TT _ (made_assign_array oracle o1 len) (assign_array_spec oracle o1 len st Hc H) E).
  - exact (TT _ (made_access oracle o1 i as_) (access_spec oracle o1 i as_ st H) E).
Qed.
Print Assumptions C82_assigned.
Example C82_assigned_example :
  let st := fst (run late (firstn 4 sample) initial) in
  let (st', r) := step late (OAssign 0 3) st in
  r = inl None /\ option_map size_of (live st 0) = Some 3 /\ option_map size_of (live st' 0) = Some 2.
Proof. vm_compute. auto. Qed.

(** The precondition on array constructors is needed: a fixed_buffer<> with dynamic size does not check that the array
    fits, and assigns to elements that do not exist. *)
Theorem C82_too_long : exists oracle sh len, sensible sh /\ Z.of_nat len < 2 ^ 63 /\
  In (inr LifeErr) (snd (run oracle [OFromArray sh len] initial)).
Proof. exists (fun _ => false), (FixedBuffer (-1) 1), 2%nat. split; [cbn; lia|]. split; [cbn; lia|]. vm_compute. auto. Qed.
Print Assumptions C82_too_long.
