(** Properties of value categories of the arguments of range_zip() and the range algorithms (C74). *)

From Coq Require Import ZArith Arith Bool Lia List.
From Verif Require Import Base ZipModel ZipSpec VCatModel ZipCatModel ZipCatSpec ZipCatProofs.
Import ListNotations.

(** Types for examples. *)
Definition vector_t : range_type :=
  {| t_index := false; t_array := false; t_data := true; t_size := true; t_tuple := false; t_view := false; t_copy := true |}.
Definition list_t : range_type :=
  {| t_index := false; t_array := false; t_data := false; t_size := true; t_tuple := false; t_view := false; t_copy := true |}.
Definition std_array_t : range_type :=
  {| t_index := false; t_array := false; t_data := true; t_size := true; t_tuple := true; t_view := false; t_copy := true |}.
Definition span_t : range_type :=
  {| t_index := false; t_array := false; t_data := true; t_size := true; t_tuple := false; t_view := true; t_copy := true |}.
Definition index_t : range_type :=
  {| t_index := true; t_array := false; t_data := false; t_size := false; t_tuple := false; t_view := false; t_copy := true |}.
Definition array_t : range_type :=
  {| t_index := false; t_array := true; t_data := true; t_size := true; t_tuple := false; t_view := false; t_copy := true |}.

(** A vector, a list, an std::array<>, a span of the vector, range_index. *)
Definition example_memory : memory :=
  {| m_objs := fun k => match k with
       | 0 => Some (Elems [1; 2; 3]) | 1 => Some (Elems [4; 5; 6]) | 2 => Some (Elems [7; 8; 9]) | 3 => Some (View 0)
       | 4 => Some (Elems []) | _ => None
       end;
     m_next := 5 |}.
Definition clear (l : list nat) : list nat := [].

(** ** The algorithms call their functors with references to the elements of the arguments, whatever the value categories *)
Theorem C74_algorithms : forall V F (f : functor (V := V) (F := F) unit) m args n s,
  Forall (fun a => usable (a_type a)) args -> have_length m args n -> (exists a, In a args /\ knows_size (a_type a)) ->
  exists ts, all_elements m args n ts /\ range_for f args (s, m) = call_each f (s, m) ts.
Proof.
  intros V F f m args n s Hu Hl Hk.
  exists (map (fun j => map (elem_at m (Z.of_nat j)) args) (seq 0 (Z.to_nat n))).
  split; [|apply range_for_args; auto]. split; [rewrite map_length, seq_length; reflexivity|].
  intros j es H. rewrite nth_error_map in H. destruct (nth_error (seq 0 (Z.to_nat n)) j) as [i|] eqn:E; [|discriminate].
  injection H as <-. assert (i = j).
  { assert (j < length (seq 0 (Z.to_nat n))) by (apply nth_error_Some; rewrite E; discriminate). rewrite seq_length in H.
    rewrite (nth_error_nth' _ 0) in E by (rewrite seq_length; auto). rewrite seq_nth in E by auto. injection E as <-. reflexivity. }
  subst. eapply elem_at_spec. exact Hl.
Qed.
Print Assumptions C74_algorithms.

Theorem C74_algorithms_rvalues : forall V F (args args' : list arg) (s : F * memory (V := V)), Forall2 same_but_rvalue args args' ->
  (forall f, range_for f args s = range_for f args' s) /\
  (forall A B init (reduce : F * memory -> A -> B -> (F * memory) * outcome A) transform,
     range_transform_reduce init reduce transform args s = range_transform_reduce init reduce transform args' s) /\
  (forall pred, range_count_if pred args s = range_count_if pred args' s) /\
  (forall pred, range_all_of pred args s = range_all_of pred args' s) /\
  (forall pred, range_any_of pred args s = range_any_of pred args' s) /\
  (forall pred, range_none_of pred args s = range_none_of pred args' s).
Proof. intros V F args args' s H. repeat split; intros; apply same_on_args; exact H. Qed.
Print Assumptions C74_algorithms_rvalues.

Definition collect (s : list (list element) * memory (V := nat)) (es : list element) : (list (list element) * memory) * outcome unit :=
  ((fst s ++ [es], snd s), Ok tt).
Example C74_algorithms_example :
  fst (fst (range_for collect [mk_arg index_t CL 4; mk_arg vector_t X 0; mk_arg list_t CL 1; mk_arg span_t CX 3] ([], example_memory))) =
    [[EIdx 0; ERef 0 0 false; ERef 1 0 true; ERef 0 0 false];
     [EIdx 1; ERef 0 1 false; ERef 1 1 true; ERef 0 1 false];
     [EIdx 2; ERef 0 2 false; ERef 1 2 true; ERef 0 2 false]].
Proof. reflexivity. Qed.

(** ** range_zip() *)
(** Without non-const rvalues: lvalue arguments are referred to, const rvalues are copied. *)
Theorem C74_zip_partial : forall V (moved : list V -> list V) m args n,
  Forall (fun a => usable (a_type a)) args -> have_length m args n -> well_formed m -> (exists a, In a args /\ knows_size (a_type a)) ->
  (forall a, In a args -> a_cat a = CX -> t_copy (a_type a) = true) -> (forall a, In a args -> a_cat a <> X) ->
  exists z m', range_zip moved args m = Ok (z, m') /\ size z = n /\
    (forall k, k < m_next m -> m_objs m' k = m_objs m k) /\
    ((forall a, In a args -> a_cat a = L \/ a_cat a = CL) -> m' = m) /\
    forall j, (0 <= j < n)%Z -> exists es, at_index z j m' = Ok es /\ zipped_at m m' args j es.
Proof.
  intros V moved m args n Hu Hl Hw Hk Hc Hx.
  destruct (range_zip_args moved m args n Hu Hl Hw Hk Hc) as [d [st [m' [E1 [E2 [E3 E4]]]]]].
  destruct (store_all_const moved args m Hw (objects_exist m args n Hl) Hx) as [st' [m2 [E5 [Hf Hst]]]].
  rewrite E3 in E5. injection E5 as <- <-.
  exists {| z_dim := d; z_ranges := st |}, m'. split; [exact E4|]. split; [exact E1|]. split; [exact Hf|]. split.
  { intro Hlv. clear - E3 Hlv. revert m m' st E3. induction args as [|a args IH]; intros m m' st E3; cbn in E3; [congruence|].
    destruct (Hlv a (or_introl eq_refl)) as [Ha|Ha]; unfold store in E3; rewrite Ha in E3; cbn in E3;
      (destruct (store_all moved args m) as [[st' m2]| | | | |] eqn:E; try discriminate; cbn in E3; injection E3 as <- <-;
       apply (IH (fun b Hb => Hlv b (or_intror Hb)) m m2 st' E)). }
  assert (HF : Forall2 (fun a a' => a_type a' = a_type a /\ a_cat a' = a_cat a /\ exists k xs, contents m a k xs /\
      (t_index (a_type a) = false -> Z.of_nat (length xs) = n) /\
      exists k', contents m' a' k' xs /\ (if is_lvalue (a_cat a) || t_view (a_type a) then k' = k else k' = a_loc a' /\ m_next m <= k')) args st).
  { revert Hst. apply Forall2_impl_in. intros a a' Ha _ H. destruct (Hl a Ha) as [k [xs [Hca Hn]]].
    destruct (stored_contents m m' a a' k xs Hw Hf H (Hx a Ha) Hca) as [k' [C1 C2]].
    destruct H as [T1 [T2 _]]. split; [exact T1|]. split; [exact T2|]. exists k, xs. split; [exact Hca|]. split; [exact Hn|]. eauto. }
  intros j Hj.
  assert (Hall : forall a', In a' st -> exists a, In a args /\ a_type a' = a_type a /\ a_cat a' = a_cat a /\
             exists k' xs, contents m' a' k' xs /\ (t_index (a_type a) = false -> Z.of_nat (length xs) = n)).
  { clear - HF. induction HF as [|a a' l l' [T1 [T2 [k [xs [_ [Hn [k' [H _]]]]]]]] _ IH]; intros b Hb; [destruct Hb|].
    destruct Hb as [<-|Hb]; [exists a; split; [left; auto|eauto 8]|]. destruct (IH b Hb) as [c [Hc H']]. exists c. split; [right; auto|auto]. }
  exists (map (elem_at m' j) st). split.
  - apply (at_index_ok m' {| z_dim := d; z_ranges := st |} n); cbn [z_ranges].
    + apply Forall_forall. intros a' Ha'. destruct (Hall a' Ha') as [a [Ha [-> _]]]. revert a Ha. apply Forall_forall. exact Hu.
    + intros a' Ha'. destruct (Hall a' Ha') as [a [Ha [T1 [_ [k' [xs [H Hn]]]]]]]. exists k', xs. split; [exact H|]. rewrite T1. exact Hn.
    + intros a' Ha'. destruct (Hall a' Ha') as [a [Ha [_ [-> _]]]]. apply Hx, Ha.
    + exact Hj.
  - unfold zipped_at. clear - HF Hx. assert (Hx' : forall a, In a args -> a_cat a <> X) by exact Hx. clear Hx.
    induction HF as [|a a' l l' [T1 [T2 [k [xs [Hc [Hn [k' [H Hk]]]]]]]] _ IH]; cbn; constructor;
      [|apply IH; intros b Hb; apply Hx'; right; exact Hb].
    exists k, xs. split; [exact Hc|]. unfold elem_at. rewrite (cont_contents m' a' k' xs H). cbn [fst].
    assert (Ee : element_in a' k' j = element_in a k' j) by (unfold element_in; rewrite T1, T2; reflexivity). rewrite Ee.
    assert (Ha := Hx' a (or_introl eq_refl)). destruct (a_cat a) eqn:Ec; cbn in Hk; try congruence.
    destruct (t_view (a_type a)) eqn:Ev; [congruence|]. destruct Hk as [-> Hk]. exists (a_loc a'). split; [exact Hk|]. split; [|reflexivity].
    inversion H; subst; auto.
Qed.
Print Assumptions C74_zip_partial.

Example C74_zip_example :
  let args := [mk_arg index_t CL 4; mk_arg vector_t L 0; mk_arg list_t CX 1; mk_arg span_t CX 3] in
  match range_zip clear args example_memory with
  | Ok (z, m') =>
      size z = 3%Z /\ m_objs m' 5 = Some (Elems [4; 5; 6]) /\
      at_index z 1 m' = Ok [EIdx 1; ERef 0 1 false; ERef 5 1 true; ERef 0 1 false]
  | _ => False
  end /\ Forall (fun a => usable (a_type a)) args /\ have_length example_memory args 3 /\ well_formed example_memory.
Proof.
  split; [cbn; auto|]. split; [repeat constructor; cbn; try (left; reflexivity); right; split; auto; discriminate|]. split.
  - intros a [<-|[<-|[<-|[<-|[]]]]].
    + exists 4, []. split; [constructor; reflexivity|discriminate].
    + exists 0, [1; 2; 3]. split; [constructor; reflexivity|reflexivity].
    + exists 1, [4; 5; 6]. split; [constructor; reflexivity|reflexivity].
    + exists 0, [1; 2; 3]. split; [eapply contents_view; reflexivity|reflexivity].
  - intros k Hk. do 5 (destruct k as [|k]; [cbn in Hk; lia|]). reflexivity.
Qed.

(** If all arguments are lvalues, the zipped range can be copied and its iterators can be used after its lifetime. *)
Theorem C74_borrows_partial : forall V (moved : list V -> list V) m args n,
  Forall (fun a => usable (a_type a)) args -> have_length m args n -> well_formed m -> (exists a, In a args /\ knows_size (a_type a)) ->
  (forall a, In a args -> a_cat a = L \/ a_cat a = CL) ->
  exists z it, range_zip moved args m = Ok (z, m) /\ begin z m = Ok it /\ copy z m = Ok (z, m) /\ destroy z m = m /\
    forall j, (0 <= j < n)%Z -> exists es, subscript it j (destroy z m) = Ok es /\ elements_at m args j es.
Proof.
  intros V moved m args n Hu Hl Hw Hk Hlv.
  assert (Hx : forall a, In a args -> a_cat a <> X) by (intros a Ha; destruct (Hlv a Ha) as [->| ->]; discriminate).
  assert (Hc : forall a, In a args -> a_cat a = CX -> t_copy (a_type a) = true) by (intros a Ha E; destruct (Hlv a Ha); congruence).
  destruct (range_zip_args moved m args n Hu Hl Hw Hk Hc) as [d [st [m' [E1 [E2 [E3 E4]]]]]].
  assert (E5 : store_all moved args m = Ok (args, m)).
  { clear - Hlv. revert m. induction args as [|a args IH]; intro m; cbn; [reflexivity|].
    assert (Ea : store moved a m = Ok (a, m)) by (unfold store; destruct (Hlv a (or_introl eq_refl)) as [->| ->]; reflexivity).
    rewrite Ea. cbn. rewrite IH by (intros; apply Hlv; right; auto). reflexivity. }
  rewrite E3 in E5. injection E5 as -> ->.
  exists {| z_dim := d; z_ranges := args |}. eexists. split; [exact E4|].
  split; [apply (begin_ok m {| z_dim := d; z_ranges := args |} n); auto|].
  assert (Lv : forall a, In a args -> is_lvalue (a_cat a) = true) by (intros a Ha; destruct (Hlv a Ha) as [->| ->]; reflexivity).
  split; [|split].
  - unfold copy. cbn [z_ranges z_dim]. replace (forallb _ args) with true by (symmetry; apply forallb_forall; intros a Ha; rewrite Lv; auto).
    replace (copy_items args m) with (Ok (args, m)); [reflexivity|].
    clear - Lv. revert m. induction args as [|a args IH]; intro m; cbn; [reflexivity|]. unfold copy_item. rewrite Lv by (left; auto). cbn.
    rewrite <- IH by (intros; apply Lv; right; auto). reflexivity.
  - unfold destroy. cbn [z_ranges]. clear - Lv. induction args as [|a args IH]; cbn; [reflexivity|]. rewrite Lv by (left; auto). apply IH. intros; apply Lv; right; auto.
  - assert (Ed : destroy {| z_dim := d; z_ranges := args |} m = m).
    { unfold destroy. cbn [z_ranges]. clear - Lv. induction args as [|a args IH]; cbn; [reflexivity|]. rewrite Lv by (left; auto). apply IH. intros; apply Lv; right; auto. }
    intros j Hj. exists (map (elem_at m j) args). rewrite Ed. split.
    + apply (subscript_ok m {| z_dim := d; z_ranges := args |} n); auto. intros a k xs _ _ [ys _ E|k' ys _ _ E]; eauto.
    + eapply elem_at_spec. exact Hl.
Qed.
Print Assumptions C74_borrows_partial.

(** A copy of a const rvalue belongs to the zipped range: iterators dangle after its lifetime. *)
Theorem C74_owns : forall V (moved : list V -> list V) m a n,
  usable (a_type a) -> have_length m [a] n -> well_formed m -> knows_size (a_type a) -> a_cat a = CX -> t_copy (a_type a) = true ->
  t_view (a_type a) = false ->
  exists z m' it, range_zip moved [a] m = Ok (z, m') /\ begin z m' = Ok it /\
    forall j, (0 <= j < n)%Z -> (exists es, subscript it j m' = Ok es) /\ subscript it j (destroy z m') = UB.
Proof.
  intros V moved m a n Hu Hl Hw Hk Hc Ht Hv.
  destruct (range_zip_args moved m [a] n) as [d [st [m' [E1 [E2 [E3 E4]]]]]]; auto.
  { exists a. split; [left; auto|auto]. }
  { intros b [<-|[]] _. exact Ht. }
  destruct (Hl a (or_introl eq_refl)) as [k [xs [H Hn]]]. assert (Ho := contents_none m a k xs H).
  cbn in E3. unfold store in E3. rewrite Hc in E3. destruct (m_objs m (a_loc a)) as [o|] eqn:E; [|congruence]. cbn in E3. injection E3 as <- <-.
  set (a' := mk_arg (a_type a) CX (m_next m)) in *. set (m' := {| m_objs := _; m_next := _ |}) in *.
  assert (Hca : contents m' a' (m_next m) xs).
  { constructor; [exact Hv|]. cbn. rewrite Nat.eqb_refl. inversion H; subst; congruence. }
  assert (Hi : t_index (a_type a) = false) by (destruct Hk; auto).
  assert (Hl' : have_length m' [a'] n).
  { intros b [<-|[]]. exists (m_next m), xs. split; [exact Hca|]. cbn. auto. }
  assert (Hu' : Forall (fun a => usable (a_type a)) [a']) by (constructor; auto).
  exists {| z_dim := d; z_ranges := [a'] |}, m'. eexists. split; [exact E4|].
  split; [apply (begin_ok m' {| z_dim := d; z_ranges := [a'] |} n); auto; intros b [<-|[]]; discriminate|].
  intros j Hj. split.
  - eexists. apply (subscript_ok m' {| z_dim := d; z_ranges := [a'] |} n); auto. intros b kb xb _ _ [ys _ E'|kb' ys _ _ E']; eauto.
  - unfold subscript. cbn [it_pos it_handles z_ranges]. rewrite ZipLoopProofs.iter_at_begin, ZipLoopProofs.zip_subscript_at.
    + cbn [bind]. rewrite (resolve_ok m' [a'] Hu' (0 + j)). cbn [bind map mapM]. unfold elem_at, element_in, destroy. cbn -[cont].
      rewrite Hi, (cont_contents m' a' _ _ Hca). cbn. rewrite Nat.eqb_refl. reflexivity.
    + intros r Hr Hh. rewrite (length_all m' [a'] n Hu' Hl' r Hr Hh). lia.
Qed.
Print Assumptions C74_owns.

(** Rvalues that are not const are stored, but then the elements cannot be reached. *)
Theorem C74_rvalue_rejected : forall V (moved : list V -> list V) m args n,
  Forall (fun a => usable (a_type a)) args -> have_length m args n -> well_formed m -> (exists a, In a args /\ knows_size (a_type a)) ->
  (forall a, In a args -> a_cat a = CX -> t_copy (a_type a) = true) -> (exists a, In a args /\ a_cat a = X) ->
  exists z m', range_zip moved args m = Ok (z, m') /\ size z = n /\
    forall m'' : memory (V := V), begin z m'' = IllFormed /\ common_end z m'' = IllFormed /\ forall j, at_index z j m'' = IllFormed.
Proof.
  intros V moved m args n Hu Hl Hw Hk Hc [a [Ha Ex]].
  destruct (range_zip_args moved m args n Hu Hl Hw Hk Hc) as [d [st [m' [E1 [E2 [E3 E4]]]]]].
  destruct (store_all_ok moved args m Hw (objects_exist m args n Hl)) as [st' [m2 [E5 [_ [_ Hst]]]]].
  rewrite E3 in E5. injection E5 as <- <-.
  exists {| z_dim := d; z_ranges := st |}, m'. split; [exact E4|]. split; [exact E1|].
  assert (Hb : forall start (m'' : memory (V := V)), begin_with start {| z_dim := d; z_ranges := st |} m'' = IllFormed).
  { intros start m''. unfold begin_with. cbn [z_ranges]. replace (forallb _ st) with false; [reflexivity|]. symmetry.
    clear - Hst Ha Ex. induction Hst as [|b b' l l' [_ T] _ IH]; [destruct Ha|]. cbn. destruct Ha as [->|Ha]; [rewrite T, Ex; reflexivity|].
    rewrite (IH Ha). apply andb_false_r. }
  intro m''. split; [apply Hb|]. split; [apply Hb|]. intro j. unfold at_index, begin. rewrite Hb. reflexivity.
Qed.
Print Assumptions C74_rvalue_rejected.

(** The documented example: range_zip(range_index, std::array{ 1, 2, 3 }). *)
Theorem C74_rvalue_refuted : exists (m : memory (V := nat)) args z m',
  Forall (fun a => usable (a_type a)) args /\ have_length m args 3 /\ well_formed m /\ (exists a, In a args /\ knows_size (a_type a)) /\
  range_zip clear args m = Ok (z, m') /\ size z = 3%Z /\ begin z m' = IllFormed /\ at_index z 0 m' = IllFormed.
Proof.
  exists example_memory, [mk_arg index_t CL 4; mk_arg std_array_t X 2]. do 2 eexists.
  split; [repeat constructor; cbn; try (left; reflexivity); right; split; auto; discriminate|]. split; [|split; [|split]].
  - intros a [<-|[<-|[]]].
    + exists 4, []. split; [constructor; reflexivity|discriminate].
    + exists 2, [7; 8; 9]. split; [constructor; reflexivity|reflexivity].
  - intros k Hk. do 5 (destruct k as [|k]; [cbn in Hk; lia|]). reflexivity.
  - exists (mk_arg std_array_t X 2). split; [right; left; auto|]. split; auto.
  - split; [reflexivity|]. repeat split; reflexivity.
Qed.
Print Assumptions C74_rvalue_refuted.

(** ** Assignment of zipped ranges assigns to the arguments of the left-hand side. *)
Theorem C74_assigns_through : forall V (m : memory (V := V)) z1 z2, same_size_type z1 z2 -> NoDup (map a_loc (z_ranges z1)) ->
  (forall x y, In x (z_ranges z1) -> In y (z_ranges z2) -> a_loc x <> a_loc y) ->
  Forall2 (fun x y => a_type x = a_type y /\ a_cat x = L /\ a_cat y = L /\ t_copy (a_type x) = true) (z_ranges z1) (z_ranges z2) ->
  (forall a, In a (z_ranges z1 ++ z_ranges z2) -> m_objs m (a_loc a) <> None) ->
  exists z m', assign z1 z2 m = Ok (z, m') /\ size z = size z2 /\ z_ranges z = z_ranges z1 /\
    Forall2 (fun x y => m_objs m' (a_loc x) = m_objs m (a_loc y)) (z_ranges z1) (z_ranges z2) /\
    (forall k, ~ In k (map a_loc (z_ranges z1)) -> m_objs m' k = m_objs m k).
Proof.
  intros V m z1 z2 Hd Hnd Hdis HF Hin.
  destruct (assign_items_ok (z_ranges z1) (z_ranges z2) m) as [m' [E [_ [H1 H2]]]]; auto.
  { clear - HF. induction HF; cbn; auto. }
  exists {| z_dim := z_dim z2; z_ranges := z_ranges z1 |}, m'. split; [|repeat split; auto].
  unfold assign. rewrite (proj2 (dim_eqb_spec z1 z2) Hd). cbn [andb]. rewrite E.
  replace (length (z_ranges z1) =? length (z_ranges z2)) with true by (symmetry; apply Nat.eqb_eq; clear - HF; induction HF; cbn; auto).
  replace (forallb _ (combine _ _)) with true; [reflexivity|]. symmetry. clear - HF.
  induction HF as [|x y l l' [T1 [T2 [T3 T4]]] _ IH]; cbn; [reflexivity|]. rewrite IH. unfold assignable.
  rewrite T2, T3, T4, <- T1, type_eqb_refl. reflexivity.
Qed.
Print Assumptions C74_assigns_through.

(** Where an argument is const, such as range_index, there is no assignment at all. *)
Theorem C74_assign_const : forall V (m : memory (V := V)) z1 z2, (exists a, In a (z_ranges z1) /\ is_const (a_cat a) = true) ->
  assign z1 z2 m = IllFormed.
Proof.
  intros V m z1 z2 [a [Ha Hc]]. unfold assign.
  destruct (dim_eqb (z_dim z1) (z_dim z2)); [|reflexivity]. destruct (Nat.eqb_spec (length (z_ranges z1)) (length (z_ranges z2))) as [El|]; [|reflexivity].
  cbn [andb]. replace (forallb _ _) with false; [reflexivity|]. symmetry.
  revert El Ha. generalize (z_ranges z2). induction (z_ranges z1) as [|x l IH]; intros [|y l'] El Ha; try discriminate; [destruct Ha|].
  cbn. destruct Ha as [->|Ha].
  - unfold assignable. cbn. rewrite Hc. cbn. rewrite !andb_false_r. reflexivity.
  - rewrite (IH l'); [apply andb_false_r| |exact Ha]. injection El. auto.
Qed.
Print Assumptions C74_assign_const.

(** Nor is there one between range objects of different types. *)
Theorem C74_assign_rejected : forall V (m : memory (V := V)) z1 z2,
  ~ same_size_type z1 z2 \/ length (z_ranges z1) <> length (z_ranges z2) \/
  (exists i x y, nth_error (z_ranges z1) i = Some x /\ nth_error (z_ranges z2) i = Some y /\
    (a_type x <> a_type y \/ a_cat x <> a_cat y \/ t_copy (a_type x) = false)) ->
  assign z1 z2 m = IllFormed.
Proof.
  intros V m z1 z2 H. unfold assign. destruct (_ && _ && _) eqn:E; [|reflexivity]. exfalso. rewrite !andb_true_iff in E. destruct E as [[E1 E2] E3].
  apply dim_eqb_spec in E1. apply Nat.eqb_eq in E2. destruct H as [H|[H|(i & x & y & Hx & Hy & H)]]; [tauto|tauto|].
  rewrite forallb_forall in E3.
  assert (I : In (x, y) (combine (z_ranges z1) (z_ranges z2))).
  { clear - Hx Hy. revert i Hx Hy. generalize (z_ranges z2). induction (z_ranges z1) as [|a l IH]; intros [|b l'] [|i] Hx Hy; try discriminate; cbn in *.
    - left. congruence.
    - right. eapply IH; eauto. }
  apply E3 in I. unfold assignable in I. cbn [fst snd] in I. rewrite !andb_true_iff in I. destruct I as [[[I1 I2] _] I4].
  apply type_eqb_eq in I1. destruct H as [H|[H|H]]; [tauto| |congruence]. apply H. destruct (a_cat x), (a_cat y); congruence || discriminate.
Qed.
Print Assumptions C74_assign_rejected.

(** "z1 = z2" overwrites a vector that z1 was made of. *)
Theorem C74_assign_refuted : exists (m m' : memory (V := nat)) z1 z2 z,
  range_zip clear [mk_arg vector_t L 0] m = Ok (z1, m) /\ range_zip clear [mk_arg vector_t L 1] m = Ok (z2, m) /\
  assign z1 z2 m = Ok (z, m') /\ m_objs m 0 = Some (Elems [1; 2; 3]) /\ m_objs m' 0 = Some (Elems [4; 5; 6]) /\
  at_index z 0 m' = Ok [ERef 0 0 false] /\ at_index z2 0 m' = Ok [ERef 1 0 false].
Proof. exists example_memory. do 4 eexists. repeat split; reflexivity. Qed.
Print Assumptions C74_assign_refuted.

(** ** Types that are not usable are rejected: built-in arrays, and types with data() but without size(). *)
Theorem C74_unusable_rejected : forall V (moved : list V -> list V) m args, (exists a, In a args /\ ~ usable (a_type a)) ->
  range_zip moved args m = IllFormed /\
  (forall F (f : functor (F := F) unit) s, range_for f args (s, m) = ((s, m), IllFormed)) /\
  (forall F (p : functor (F := F) bool) s,
     range_count_if p args (s, m) = ((s, m), IllFormed) /\ range_all_of p args (s, m) = ((s, m), IllFormed) /\
     range_any_of p args (s, m) = ((s, m), IllFormed) /\ range_none_of p args (s, m) = ((s, m), IllFormed)) /\
  (forall F A B init (reduce : F * memory -> A -> B -> (F * memory) * outcome A) transform s,
     range_transform_reduce init reduce transform args (s, m) = ((s, m), IllFormed)).
Proof.
  intros V moved m args [a [Ha Hn]].
  assert (E : arg_rngs args m = IllFormed).
  { unfold arg_rngs. replace (forallb _ args) with false; [reflexivity|]. symmetry. induction args as [|b l IH]; [destruct Ha|]. cbn.
    destruct Ha as [->|Ha]; [|rewrite (IH Ha); apply andb_false_r]. replace (type_ok (a_type a)) with false; [reflexivity|].
    symmetry. apply not_true_iff_false. intro T. apply Hn. revert T. clear. unfold usable, class_type, type_ok, category_ok, leaf_mode.
    destruct (a_type a) as [[] [] [] [] ? ? ?]; cbn; intro T; try discriminate; auto. }
  split.
  - unfold range_zip. rewrite E. destruct (forallb storable args); reflexivity.
  - repeat split; intros; unfold range_for, range_count_if, range_all_of, range_any_of, range_none_of, range_transform_reduce, on_args; cbn [snd]; rewrite E; reflexivity.
Qed.
Print Assumptions C74_unusable_rejected.
Example C74_unusable_example :
  let t := {| t_index := false; t_array := false; t_data := true; t_size := false; t_tuple := false; t_view := false; t_copy := true |} in
  ~ usable t /\ range_zip clear [mk_arg vector_t L 0; mk_arg t L 1] example_memory = IllFormed.
Proof. cbn. split; [|reflexivity]. intros [H|[_ H]]; cbn in H; [discriminate|discriminate (H eq_refl)]. Qed.

(** ** Built-in arrays are rejected, although their sizes are known and std::begin() and std::end() exist. *)
Theorem C74_array_rejected : forall V (moved : list V -> list V) m args, (exists a, In a args /\ t_array (a_type a) = true /\ t_index (a_type a) = false) ->
  range_zip moved args m = IllFormed /\
  (forall F (f : functor (F := F) unit) s, range_for f args (s, m) = ((s, m), IllFormed)) /\
  (forall F (p : functor (F := F) bool) s,
     range_count_if p args (s, m) = ((s, m), IllFormed) /\ range_all_of p args (s, m) = ((s, m), IllFormed) /\
     range_any_of p args (s, m) = ((s, m), IllFormed) /\ range_none_of p args (s, m) = ((s, m), IllFormed)) /\
  (forall F A B init (reduce : F * memory -> A -> B -> (F * memory) * outcome A) transform s,
     range_transform_reduce init reduce transform args (s, m) = ((s, m), IllFormed)).
Proof.
  intros V moved m args [a [Ha [H1 H2]]].
  assert (E : arg_rngs args m = IllFormed).
  { unfold arg_rngs. replace (forallb _ args) with false; [reflexivity|]. symmetry. induction args as [|b l IH]; [destruct Ha|]. cbn.
    destruct Ha as [->|Ha]; [|rewrite (IH Ha); apply andb_false_r]. unfold type_ok, category_ok. rewrite H1, H2. reflexivity. }
  split.
  - unfold range_zip. rewrite E. destruct (forallb storable args); reflexivity.
  - repeat split; intros; unfold range_for, range_count_if, range_all_of, range_any_of, range_none_of, range_transform_reduce, on_args; cbn [snd]; rewrite E; reflexivity.
Qed.
Print Assumptions C74_array_rejected.
(** An array and a vector with three elements each. *)
Theorem C74_array_refuted : exists (m : memory (V := nat)) args,
  (forall a, In a args -> t_index (a_type a) = false /\ (t_data (a_type a) = true -> t_size (a_type a) = true)) /\
  have_length m args 3 /\ well_formed m /\ (exists a, In a args /\ knows_size (a_type a)) /\
  range_zip clear args m = IllFormed /\ range_for collect args ([], m) = (([], m), IllFormed).
Proof.
  exists example_memory, [mk_arg array_t L 0; mk_arg vector_t L 1].
  split; [intros a [<-|[<-|[]]]; split; reflexivity|]. split; [|split; [|split]].
  - intros a [<-|[<-|[]]].
    + exists 0, [1; 2; 3]. split; [constructor; reflexivity|reflexivity].
    + exists 1, [4; 5; 6]. split; [constructor; reflexivity|reflexivity].
  - intros k Hk. do 5 (destruct k as [|k]; [cbn in Hk; lia|]). reflexivity.
  - exists (mk_arg vector_t L 1). split; [right; left; auto|]. split; auto.
  - split; reflexivity.
Qed.
Print Assumptions C74_array_refuted.
