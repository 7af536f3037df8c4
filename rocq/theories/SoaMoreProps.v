(** More about soa_span (C53, C56): const iterators and references, and checks of the memory model. *)

From Coq Require Import ZArith Arith Bool Lia List.
From Verif Require Import Base ExpandModel SoaModel SoaSpec SoaProps.
Import ListNotations.
Local Open Scope Z_scope.

Section More.
  Context {V : Type}.
  Notation state := (state (V := V)).

  (** cbegin() and cend() are begin() and end() with const component types: same object, same position, and the same
      values are read through them. *)
  Theorem C53_const_iterators : forall (st : state) o s, get_obj st o = Ok s ->
    exists b e cb ce, begin_ st o = Ok b /\ end_ st o = Ok e /\ cbegin st o = Ok cb /\ cend st o = Ok ce /\
      it_const cb = repeat true (length (soa_const s)) /\ it_const ce = repeat true (length (soa_const s)) /\
      it_eq cb b = true /\ it_eq ce e = true /\
      (forall n i, it_subscript cb n = Ok i -> exists j, it_subscript b n = Ok j /\
         ref_read st i = ref_read st j /\ (forall x, ref_get_read st i x = ref_get_read st j x)) /\
      ref_read st (it_deref ce) = ref_read st (it_deref e).
  Proof.
    intros st o s H. assert (M : forall l : list bool, map (fun _ => true) l = repeat true (length l)) by (induction l as [|x l IH]; cbn; congruence).
    exists (mk_it (soa_const s) o 0), (mk_it (soa_const s) o (cast ptrdiff_ty (soa_size s))), (mk_it (map (fun _ => true) (soa_const s)) o 0), (mk_it (map (fun _ => true) (soa_const s)) o (cast ptrdiff_ty (soa_size s))).
    unfold begin_, end_, cbegin, cend. rewrite H. cbn [bind]. split; [reflexivity|]. split; [reflexivity|]. split; [reflexivity|]. split; [reflexivity|].
    split; [apply M|]. split; [apply M|]. split; [reflexivity|]. split; [apply Z.eqb_refl|]. split; [|reflexivity].
    intros n i Hi. unfold it_subscript in *. cbn [it_index it_const it_obj] in *. apply bind_ok_inv in Hi as (x & -> & Hi). injection Hi as <-. cbn [bind]. eexists. split; [reflexivity|]. split; reflexivity.
  Qed.

  (** An iterator converts to one of const types at the same position, except when some but not all of the component types
      are const: then the conversion is rejected. *)
  Theorem C53_iterator_to_const : forall it : iterator,
    ((forall c, In c (it_const it) -> c = true) \/ (forall c, In c (it_const it) -> c = false) ->
       exists it', it_to_const it = Ok it' /\ it_const it' = repeat true (length (it_const it)) /\ it_obj it' = it_obj it /\ it_index it' = it_index it) /\
    (In true (it_const it) -> In false (it_const it) -> it_to_const it = IllFormed).
  Proof.
    assert (M : forall l : list bool, map (fun _ => true) l = repeat true (length l)) by (induction l as [|x l IH]; cbn; congruence).
    intros [c o i]. unfold it_to_const. cbn [it_const it_obj it_index]. split.
    - intro H. destruct (forallb (fun c => c) c) eqn:F.
      + eexists. split; [reflexivity|]. cbn [it_const it_obj it_index]. split; [|split; reflexivity]. rewrite forallb_forall in F. rewrite <- M.
        clear - F. induction c as [|x c IH]; [reflexivity|]. cbn. rewrite <- IH by (intros y Hy; apply F; right; exact Hy). rewrite (F x (or_introl eq_refl)). reflexivity.
      + destruct H as [H|H].
        * exfalso. assert (forallb (fun c => c) c = true) by (apply forallb_forall; exact H). congruence.
        * replace (existsb (fun c => c) c) with false. 2:{ symmetry. apply not_true_is_false. intro E. apply existsb_exists in E as (x & I & E). rewrite (H x I) in E. discriminate. }
          eexists. split; [reflexivity|]. cbn [it_const it_obj it_index]. split; [apply M|split; reflexivity].
    - intros Ht Hf. replace (forallb (fun c => c) c) with false. 2:{ symmetry. apply not_true_is_false. intro F. rewrite forallb_forall in F. specialize (F false Hf). discriminate. }
      replace (existsb (fun c => c) c) with true; [reflexivity|]. symmetry. apply existsb_exists. exists true. auto.
  Qed.

  (** References with a const component cannot be swapped, and const components cannot be assigned through get<>(). *)
  Theorem C56_swap_const : forall (st : state) lhs rhs, In true (r_const lhs) -> ref_swap st lhs rhs = IllFormed.
  Proof. intros st lhs rhs H. unfold ref_swap. replace (existsb (fun c => c) (r_const lhs)) with true; [reflexivity|]. symmetry. apply existsb_exists. exists true. auto. Qed.
  Theorem C53_write_const_component : forall (st : state) r i v, nth_error (r_const r) i <> Some false -> ref_get_write st r i v = IllFormed.
  Proof. intros st r i v H. unfold ref_get_write. destruct (nth_error (r_const r) i) as [[|]|]; congruence. Qed.

  (** The memory model: what the language allows. *)
  Lemma ptr_add_defined : forall (m : memory (V := V)) b i n q, ptr_add m (PAt b i) n = Ok q <-> q = PAt b (i + n) /\ exists bl, nth_error m b = Some bl /\ 0 <= i + n <= Z.of_nat (length (b_elems bl)).
  Proof.
    intros m b i n q. unfold ptr_add. destruct (nth_error m b) as [bl|]; [|split; [discriminate|intros (_ & bl & E & _); discriminate]].
    destruct (_ && _) eqn:E.
    - apply andb_true_iff in E as [E1 E2]. apply Z.leb_le in E1, E2. split; [intro H; injection H as <-; eauto|intros (-> & _); reflexivity].
    - split; [discriminate|]. intros (_ & bl' & E' & L). injection E' as <-. apply andb_false_iff in E as [E|E]; apply Z.leb_gt in E; lia.
  Qed.
  Lemma ptr_add_null : forall (m : memory (V := V)) n q, ptr_add m PNull n = Ok q <-> n = 0 /\ q = PNull.
  Proof. intros. unfold ptr_add. destruct (Z.eqb_spec n 0); split; intro H; [injection H as <-; auto|destruct H; subst; reflexivity|discriminate|destruct H; contradiction]. Qed.
  Lemma ptr_add_else : forall (m : memory (V := V)) p n, (exists q, ptr_add m p n = Ok q) \/ ptr_add m p n = UB.
  Proof. intros m [|b i] n; cbn; [destruct (n =? 0)|destruct (nth_error m b) as [bl|]; [destruct (_ && _)|]]; eauto. Qed.
  Lemma load_defined : forall (m : memory (V := V)) p v, load m p = Ok v <-> exists b i, p = PAt b i /\ cell m b i = Some v.
  Proof.
    intros m [|b i] v; cbn [load]; [split; [discriminate|intros (b & i & E & _); discriminate]|]. unfold aget, cell.
    destruct (nth_error m b) as [bl|] eqn:E.
    - destruct (i <? 0) eqn:L; [split; [discriminate|intros (b' & i' & P & C); injection P as <- <-; rewrite L in C; discriminate]|].
      unfold arr_get. destruct (nth_error (b_elems bl) (Z.to_nat i)) as [x|] eqn:N; split.
      + intro H. injection H as <-. exists b, i. rewrite L, E. auto.
      + intros (b' & i' & P & C). injection P as <- <-. rewrite L, E, N in C. congruence.
      + discriminate.
      + intros (b' & i' & P & C). injection P as <- <-. rewrite L, E, N in C. discriminate.
    - split; [discriminate|]. intros (b' & i' & P & C). injection P as <- <-. rewrite E in C. destruct (i <? 0); discriminate.
  Qed.
  Lemma store_defined : forall (m : memory (V := V)) p v, (exists m', store m p v = Ok m') <-> exists b i bl, p = PAt b i /\ nth_error m b = Some bl /\ b_const bl = false /\ 0 <= i < Z.of_nat (length (b_elems bl)).
  Proof.
    intros m [|b i] v; cbn [store]; [split; [intros (m' & H); discriminate|intros (b & i & bl & E & _); discriminate]|].
    destruct (nth_error m b) as [bl|] eqn:E; [|split; [intros (m' & H); discriminate|intros (b' & i' & bl & P & N & _); injection P as <- <-; congruence]].
    destruct (_ || _) eqn:G.
    - split; [intros (m' & H); discriminate|]. intros (b' & i' & bl' & P & N & C & L). injection P as <- <-. rewrite E in N. injection N as <-.
      rewrite C in G. apply orb_true_iff in G as [G|G]; [apply Z.ltb_lt in G|apply Z.leb_le in G]; lia.
    - apply orb_false_iff in G as [G G2]. apply orb_false_iff in G as [G0 G1]. apply Z.ltb_ge in G1. apply Z.leb_gt in G2.
      split; [intros _; exists b, i, bl; repeat split; auto; lia|eauto].
  Qed.
  Lemma store_else : forall (m : memory (V := V)) p v, (exists m', store m p v = Ok m') \/ store m p v = UB.
  Proof. intros m [|b i] v; cbn; [auto|]. destruct (nth_error m b); [destruct (_ || _)|]; eauto. Qed.
End More.
Print Assumptions C53_const_iterators.
Print Assumptions C53_iterator_to_const.
Print Assumptions C56_swap_const.
Print Assumptions C53_write_const_component.

Example C53_const_example :
  (exists it, begin_ ex_state 0 = Ok it /\ it_const it = [false; false] /\ (do c <- it_to_const it; Ok (it_const c)) = Ok [true; true]) /\
  (do it <- cend ex_state 0; Ok (it_index it)) = Ok 3 /\ get_obj ex_state 0 = Ok ex_soa /\
  it_to_const (mk_it [true; false] 0 1) = IllFormed /\ it_to_const (mk_it [true; true] 0 1) = Ok (mk_it [true; true] 0 1).
Proof. split; [eexists; split; [reflexivity|split; reflexivity]|]. repeat split. Qed.
