(** Further properties of constvals (C44 - C46): making array and tuple constants, and calls that are rejected. *)

From Coq Require Import ZArith Arith Bool Lia List.
From Verif Require Import Base ExpandModel ExpandSpec ExpandProofs ConstvalModel ConstvalSpec ConstvalProofs ConstvalProps.
Import ListNotations.

(** make_tuple_constant() gives the tuple of the values of its arguments, which must be constvals other than type sequences. *)
Theorem C44_make_tuple_constant : forall call cs vs, Forall2 (fun c v => eval call c = Ok v) cs vs ->
  ((forall c, In c cs -> is_constval c = true /\ forall ts, c <> CSeq ts) ->
     exists c, make_tuple_constant cs = Ok c /\ eval call c = Ok (VTuple vs) /\ is_constval c = true /\ make_constval call c = Ok c /\
       forall i x, nth_error vs i = Some x -> has_tag x = false -> exists e, get_constval call i c = Ok e /\ eval call e = Ok x) /\
  ((exists c, In c cs /\ (is_constval c = false \/ exists ts, c = CSeq ts)) -> make_tuple_constant cs = IllFormed).
Proof.
  intros call cs vs F. unfold make_tuple_constant. split.
  - intro H. assert (H1 : forallb is_constval cs = true) by (apply forallb_forall; intros c I; apply H, I).
    assert (H2 : forallb has_value_type cs = true).
    { apply forallb_forall. intros c I. destruct (H c I) as [K N]. destruct c; try exact K. destruct (N ts eq_refl). }
    assert (E : eval call (CTup cs) = Ok (VTuple vs)).
    { rewrite eval_tup, H2. replace (mapM (eval call) cs) with (Ok vs); [reflexivity|]. symmetry. apply mapM_inv. exact F. }
    rewrite H1, H2. exists (CTup cs). split; [reflexivity|]. split; [exact E|]. split; [reflexivity|]. split; [reflexivity|].
    intros i x Hx T. destruct (C44_get call (CTup cs) (VTuple vs) i x eq_refl E Logic.I) as (e & G1 & G2 & _); [cbn; rewrite Hx; reflexivity|exact T|].
    exists e. split; assumption.
  - intros (c & I & K). destruct (forallb is_constval cs) eqn:A; [|reflexivity]. destruct (forallb has_value_type cs) eqn:B; [|reflexivity].
    rewrite forallb_forall in A, B. specialize (A c I). specialize (B c I). destruct K as [K|[ts ->]]; [congruence|discriminate].
Qed.
Print Assumptions C44_make_tuple_constant.

(** make_array_constant() gives the array of its arguments, at least one, in the documented representation. *)
Theorem C44_make_array_constant : forall call k zs, zs <> [] ->
  exists c, make_array_constant k zs = Ok c /\ eval call c = Ok (VArray true (map (VNttp k) zs)) /\
    represents (VArray true (map (VNttp k) zs)) c /\ make_constval call c = Ok c /\
    forall i z, nth_error zs i = Some z -> get_constval call i c = Ok (CInt k z).
Proof.
  intros call k zs H. destruct zs as [|z0 zs']; [contradiction|]. cbn [make_array_constant]. set (zs := z0 :: zs') in *.
  exists (CArr true (map (VNttp k) zs)). split; [reflexivity|]. split; [reflexivity|]. split; [constructor|]. split; [reflexivity|].
  intros i z Hz. cbn [get_constval]. assert (L : i < length (map (VNttp k) zs)) by (rewrite map_length; apply nth_error_Some; congruence).
  rewrite (proj2 (Nat.ltb_lt _ _) L). unfold make_constval. cbn [is_known eval bind get_array get_value].
  rewrite (map_nth_error (VNttp k) i zs Hz). reflexivity.
Qed.
Print Assumptions C44_make_array_constant.

(** There is no array without elements to deduce a type from. *)
Theorem C44_make_array_constant_empty : forall k, make_array_constant k [] = IllFormed.
Proof. reflexivity. Qed.
Print Assumptions C44_make_array_constant_empty.

(** get<I>() of a tuple-like constval is rejected if there is no element I. *)
Theorem C44_get_rejected : forall call c v l i, eval call c = Ok v -> (v = VArray true l \/ v = VArray false l \/ v = VTuple l \/ exists k, v = VLike k l) ->
  (match c with CArr _ _ | CTup _ | CLike _ => True | _ => False end) -> length l <= i -> get_constval call i c = IllFormed.
Proof.
  intros call c v l i E V Hc Hi. destruct c as [k z|t|ts|b l0|cs|F|F|v0| | | | | | ]; try contradiction; cbn [get_constval].
  - cbn in E. injection E as <-. assert (l0 = l) by (destruct V as [V|[V|[V|[k V]]]]; congruence). subst. rewrite (proj2 (Nat.ltb_ge _ _) Hi). reflexivity.
  - rewrite eval_tup in E. destruct (forallb has_value_type cs); [|discriminate]. apply bind_ok_inv in E. destruct E as [vs [E Ev]]. injection Ev as <-.
    assert (vs = l) by (destruct V as [V|[V|[V|[k V]]]]; congruence). subst.
    assert (L : length cs = length l) by (apply mapM_inv in E; clear - E; induction E; cbn; congruence). rewrite L, (proj2 (Nat.ltb_ge _ _) Hi). reflexivity.
  - unfold make_constval. cbn [is_known]. cbn [eval] in *. rewrite E. cbn [bind]. apply nth_error_None in Hi.
    destruct V as [->|[->|[->|[k ->]]]]; cbn [get_value]; rewrite Hi; reflexivity.
Qed.
Print Assumptions C44_get_rejected.

(** constval_transform() takes a tuple of empty class for a functor to be called: calls with such a tuple and otherwise only objects
    without state are rejected ... *)
Theorem C45_empty_tuple_rejected : forall call ebo f args l, Forall (stateless ebo) args -> In (VTuple l) args -> constval_transform call ebo f args = IllFormed.
Proof.
  intros call ebo f args l A I. unfold constval_transform. rewrite (proj2 (transportable_all ebo args) A). clear A.
  assert (G : mapM functor_of args = IllFormed); [|rewrite G; reflexivity].
  induction args as [|a args IH]; [destruct I|]. cbn [mapM]. destruct I as [->|I]; [reflexivity|]. rewrite (IH I). destruct a; reflexivity.
Qed.
Print Assumptions C45_empty_tuple_rejected.
(** ... although they have a meaning: std::tuple<>, and with the empty base optimisation std::tuple<std::integral_constant<int, 1>>. *)
Theorem C45_empty_tuple_refuted : exists call f c w v, eval call c = Ok w /\ is_constval c = true /\
  (forall ebo, call f [VTuple []; w] = Ok v /\ constval_transform call ebo f [VTuple []; VConst c] = IllFormed) /\
  call f [VTuple [VConst c]; w] = Ok v /\ constval_transform call true f [VTuple [VConst c]; VConst c] = IllFormed /\
  constval_transform call false f [VTuple [VConst c]; VConst c] = Ok v.
Proof.
  exists (fun f args => match args with [VTuple _; VNttp k z] => Ok (VNttp k z) | _ => IllFormed end),
    0, (CInt 0 7), (VNttp 0 7), (VNttp 0 7). repeat split.
Qed.
Print Assumptions C45_empty_tuple_refuted.

(** Tuples are not mistaken for functors if a run-time value is among the arguments. *)
Theorem C45_empty_tuple_partial : forall call ebo f args vs, Forall2 (fun a v => argument call ebo a v \/ (exists l, a = VTuple l /\ v = VTuple l)) args vs ->
  (exists a, In a args /\ ~ stateless ebo a) -> constval_transform call ebo f args = call f vs.
Proof.
  intros call ebo f args vs F [a [Ha Ta]]. unfold constval_transform. rewrite (transportable_not_all ebo args a Ha Ta).
  replace (mapM (get_hvalue call) args) with (Ok vs); [reflexivity|]. symmetry. apply mapM_inv. clear - F.
  induction F as [|x v args vs A F IH]; constructor; [|assumption]. destruct A as [[c v' K E|v' T]|[l [-> ->]]].
  + cbn. rewrite K. assumption.
  + destruct v'; try reflexivity. destruct (T (sl_object _ _)).
  + reflexivity.
Qed.
Print Assumptions C45_empty_tuple_partial.

(** Sizes that std::ptrdiff_t cannot represent are rejected at compile time if they are known then. *)
Theorem C46_too_large : forall call l, (2 ^ 63 <= Z.of_nat (length l))%Z -> cssize call (SStatic l) = IllFormed.
Proof.
  intros call l H. unfold cssize. cbn [static_size bind].
  destruct (in_ity ptrdiff_ty (Z.of_nat (length l))) eqn:E; [|reflexivity]. apply in_ity_iff in E. unfold int_value in E. cbn [ity_bits ity_signed ptrdiff_ty] in E. lia.
Qed.
Print Assumptions C46_too_large.

Example C44_more_example :
  make_tuple_constant [CInt 0 1; CArr true [VNttp 0 2; VNttp 0 3]] = Ok (CTup [CInt 0 1; CArr true [VNttp 0 2; VNttp 0 3]]) /\
  make_tuple_constant [CInt 0 1; CFun 4] = IllFormed /\ make_tuple_constant [CInt 0 1; CSeq [2]] = IllFormed /\
  (do c <- make_array_constant 0 [5; 6]%Z; get_constval call_ex 1 c) = Ok (CInt 0 6) /\
  (do c <- make_array_constant 0 [5; 6]%Z; get_constval call_ex 2 c) = IllFormed /\
  get_constval call_ex 2 (CLike (CTupleAcc 1 (CFun 1))) = IllFormed /\
  (exists v, eval call_ex (CLike (CTupleAcc 1 (CFun 1))) = Ok v /\ v = VLike 5 [VNttp 0 7; VOther 1 8]).
Proof. do 6 (split; [vm_compute; reflexivity|]). eexists. split; reflexivity. Qed.
