(** Proofs about the element types of arrays. *)

From Coq Require Import ZArith Arith Bool Lia List.
From Verif Require Import Base ExpandModel ExpandProofs TupleModel TupleSpec TupleProofs InitModel InitSpec.
Import ListNotations.
Local Open Scope Z_scope.

(** ** Types *)
Lemma ity_eqb_eq : forall a b, ity_eqb a b = true <-> a = b.
Proof.
  intros [b1 s1] [b2 s2]. unfold ity_eqb. cbn [ity_bits ity_signed]. rewrite andb_true_iff, Z.eqb_eq, Bool.eqb_true_iff.
  split; [intros [-> ->]; reflexivity|intro E; injection E; auto].
Qed.
Lemma ty_eqb_eq : forall a b, ty_eqb a b = true <-> a = b.
Proof.
  induction a as [s|r|c|i|u IH n]; intros [s'|r'|c'|i'|u' n']; cbn [ty_eqb]; try (split; intro H; discriminate H).
  - rewrite ity_eqb_eq. split; congruence.
  - rewrite Nat.eqb_eq. split; congruence.
  - rewrite Nat.eqb_eq. split; congruence.
  - rewrite Nat.eqb_eq. split; congruence.
  - rewrite andb_true_iff, IH, Nat.eqb_eq. split; [intros [-> ->]; reflexivity|intro E; injection E; auto].
Qed.
Lemma ty_eqb_refl : forall a, ty_eqb a a = true.
Proof. intro a. apply ty_eqb_eq. reflexivity. Qed.
Lemma ty_eqb_neq : forall a b, a <> b -> ty_eqb a b = false.
Proof. intros a b H. destruct (ty_eqb a b) eqn:E; [|reflexivity]. apply ty_eqb_eq in E. contradiction. Qed.
Fixpoint ty_size (t : ty) : nat := match t with Arr u _ => S (ty_size u) | _ => O end.
Lemma not_own_array : forall t n, t <> Arr t n.
Proof. intros t n H. apply (f_equal ty_size) in H. cbn in H. lia. Qed.
Lemma rty_eqb_eq : forall a b, rty_eqb a b = true <-> a = b.
Proof.
  intros [f c t] [g d u]. unfold rty_eqb. cbn [r_ref r_const r_ty]. rewrite !andb_true_iff, !Bool.eqb_true_iff, ty_eqb_eq.
  split; [intros [[-> ->] ->]; reflexivity|intro E; injection E; auto].
Qed.

Lemma fits_spec : forall a b, 1 <= ity_bits a -> fits a b = true <-> (forall z, in_ity a z = true -> in_ity b z = true).
Proof.
  intros a b Ha. unfold fits, in_ity. rewrite andb_true_iff, !Z.leb_le. split.
  - intros [L U] z. rewrite !andb_true_iff, !Z.leb_le. lia.
  - intro H. assert (ity_min a <= ity_max a).
    { destruct a as [bits s]. cbn [ity_bits] in Ha. unfold ity_min, ity_max. cbn [ity_bits ity_signed].
      destruct (pow_split bits Ha) as [P1 P2]. destruct s; lia. }
    pose proof (H (ity_min a)) as L. pose proof (H (ity_max a)) as U. rewrite !andb_true_iff, !Z.leb_le in L, U. lia.
Qed.

(** ** Conversions *)
Section Conversions.
  Variable user : ty -> ty -> option (val -> val).

  Lemma implicit_sound : forall s t f v, proper s -> implicit user s t = Conv f -> converted user s t v (f v).
  Proof.
    intros s t f v P H. unfold implicit in H. destruct (ty_eqb s t) eqn:E.
    - apply ty_eqb_eq in E. subst t. injection H as <-. constructor.
    - assert (Hn : s <> t) by (intro Q; subst t; rewrite ty_eqb_refl in E; discriminate E).
      destruct s as [a|r|c|i|u n], t as [b|r'|c'|i'|u' n']; try discriminate H.
      + destruct (fits a b) eqn:F; [|discriminate H]. injection H as <-. apply converted_int; [congruence|]. apply fits_spec; assumption.
      + destruct (user _ _) as [g|] eqn:U; [|discriminate H]. injection H as <-. apply converted_user; auto. right. eexists; reflexivity.
      + destruct (Nat.leb_spec r r'); [|discriminate H]. injection H as <-. apply converted_flt. cbn in E. apply Nat.eqb_neq in E. lia.
      + destruct (user _ _) as [g|] eqn:U; [|discriminate H]. injection H as <-. apply converted_user; auto. right. eexists; reflexivity.
      + destruct (user _ _) as [g|] eqn:U; [|discriminate H]. injection H as <-. apply converted_user; auto. left. eexists; reflexivity.
      + destruct (user _ _) as [g|] eqn:U; [|discriminate H]. injection H as <-. apply converted_user; auto. left. eexists; reflexivity.
      + destruct (user _ _) as [g|] eqn:U; [|discriminate H]. injection H as <-. apply converted_user; auto. left. eexists; reflexivity.
      + destruct (user _ _) as [g|] eqn:U; [|discriminate H]. injection H as <-. apply converted_user; auto. left. eexists; reflexivity.
      + destruct (user _ _) as [g|] eqn:U; [|discriminate H]. injection H as <-. apply converted_user; auto. left. eexists; reflexivity.
      + destruct (fits ptrdiff_it b) eqn:F; [|discriminate H]. injection H as <-. apply converted_idx. apply fits_spec; [cbn; lia|assumption].
      + destruct (user _ _) as [g|] eqn:U; [|discriminate H]. injection H as <-. apply converted_user; auto. right. eexists; reflexivity.
      + destruct (user _ _) as [g|] eqn:U; [|discriminate H]. injection H as <-. apply converted_user; auto. right. eexists; reflexivity.
  Qed.

  Lemma implicit_complete : forall s t v w, proper s -> converted user s t v w -> exists f, implicit user s t = Conv f /\ w = f v.
  Proof.
    intros s t v w P H. destruct H as [t v|a b v N F|a b v L|i b v F|s t f v N C U].
    - exists (fun v => v). unfold implicit. rewrite ty_eqb_refl. auto.
    - exists (fun v => v). unfold implicit. rewrite ty_eqb_neq by congruence. apply fits_spec in F; [|exact P]. rewrite F. auto.
    - exists (fun v => v). unfold implicit. rewrite ty_eqb_neq by (intro E; injection E; lia). destruct (Nat.leb_spec a b); [auto|lia].
    - exists (fun _ => VInt (Z.of_nat i)). unfold implicit. cbn [ty_eqb]. apply fits_spec in F; [|cbn; lia]. rewrite F. auto.
    - exists f. unfold implicit. rewrite ty_eqb_neq by assumption. destruct C as [[c ->]|[c ->]].
      + rewrite U. destruct t; auto.
      + destruct s; rewrite U; auto.
  Qed.

  Lemma implicit_arr_not : forall s u n, proper s -> ~ convertible user s (Arr u n) -> implicit user s (Arr u n) = NoConv.
  Proof.
    intros s u n P H. destruct (implicit user s (Arr u n)) as [f| |] eqn:E; [|exfalso|reflexivity].
    - exfalso. apply H. exists (VInt 0), (f (VInt 0)). apply implicit_sound; assumption.
    - unfold implicit in E. destruct (ty_eqb s (Arr u n)); [discriminate E|]. destruct s; try discriminate E.
      destruct (user _ _); discriminate E.
  Qed.
End Conversions.

(** ** Initialisation *)
Section Init.
  Variable user : ty -> ty -> option (val -> val).
  Variable default_of : nat -> option val.

  Definition conv_to (T : ty) (c : ty * val) (w : val) : Prop := exists f, implicit user (fst c) T = Conv f /\ w = f (snd c).

  Lemma init_conv : forall T c w rest, conv_to T c w -> init user default_of T (c :: rest) = Ok (w, rest).
  Proof. intros T [s v] w rest [f [E ->]]. cbn [fst snd] in *. destruct T; cbn [init]; rewrite E; reflexivity. Qed.
  Lemma init_scalar : forall T c rest w rest', ~ is_array T -> init user default_of T (c :: rest) = Ok (w, rest') ->
    conv_to T c w /\ rest' = rest.
  Proof.
    intros T [s v] rest w rest' NA H. unfold conv_to. cbn [fst snd].
    destruct T as [a|r|c|i|u n]; cbn [init] in H;
      try (destruct (implicit user s _) as [f| |] eqn:E; try discriminate H; injection H as <- <-; split; [exists f|]; auto).
    exfalso. apply NA. exists u, n. reflexivity.
  Qed.
  Lemma init_elems_conv : forall T cs ws rest, Forall2 (conv_to T) cs ws ->
    init_elems (init user default_of T) (length cs) (cs ++ rest) = Ok (ws, rest).
  Proof.
    intros T cs ws rest H. induction H as [|c w cs ws Hc H IH]; [reflexivity|]. cbn [length init_elems app].
    rewrite (init_conv T c w _ Hc). cbn [bind]. rewrite IH. reflexivity.
  Qed.
  Lemma init_elems_scalar : forall T cs ws rest, ~ is_array T ->
    init_elems (init user default_of T) (length cs) cs = Ok (ws, rest) -> Forall2 (conv_to T) cs ws /\ rest = [].
  Proof.
    intros T cs. induction cs as [|c cs IH]; intros ws rest NA H; cbn [length init_elems] in H.
    - injection H as <- <-. split; [constructor|reflexivity].
    - apply bind_ok_inv in H. destruct H as [[w cs1] [E H]]. apply init_scalar in E; [|assumption]. destruct E as [Hc ->].
      apply bind_ok_inv in H. destruct H as [[vs cs2] [E H]]. injection H as <- <-. apply IH in E; [|assumption].
      destruct E as [E ->]. split; [constructor; assumption|reflexivity].
  Qed.

  Definition total {A : Type} (o : outcome A) : Prop := (exists a, o = Ok a) \/ o = IllFormed.
  Lemma total_bind : forall A B (m : outcome A) (f : A -> outcome B), total m -> (forall a, m = Ok a -> total (f a)) -> total (bind m f).
  Proof. intros A B m f [[a ->]| ->] H; [apply H; reflexivity|right; reflexivity]. Qed.
  Lemma total_ok : forall A (a : A), total (Ok a).
  Proof. left. eexists; reflexivity. Qed.
  Lemma total_ill : forall A, total (IllFormed : outcome A).
  Proof. right. reflexivity. Qed.
  Lemma total_mapM : forall A B (f : A -> outcome B) l, (forall a, total (f a)) -> total (mapM f l).
  Proof.
    intros A B f l H. induction l as [|a l IH]; [apply total_ok|]. cbn [mapM]. apply total_bind; [apply H|]. intros b _.
    apply total_bind; [exact IH|]. intros; apply total_ok.
  Qed.
  Lemma total_zero : forall t, total (zero default_of t).
  Proof.
    induction t as [a|r|c|i|u IH n]; cbn [zero]; try apply total_ok.
    - destruct (default_of c); [apply total_ok|apply total_ill].
    - apply total_bind; [apply total_mapM; intro; exact IH|intros; apply total_ok].
  Qed.
  Lemma total_init_elems : forall f, (forall cs, total (f cs)) -> forall n cs, total (init_elems f n cs).
  Proof.
    intros f H n. induction n as [|n IH]; intro cs; cbn [init_elems]; [apply total_ok|].
    apply total_bind; [apply H|]. intros [v c1] _. apply total_bind; [apply IH|]. intros [vs c2] _. apply total_ok.
  Qed.
  Lemma total_init : forall t cs, total (init user default_of t cs).
  Proof.
    assert (Z : forall t, total (do v <- zero default_of t; Ok (v, @nil (ty * val)))).
    { intro t. apply total_bind; [apply total_zero|intros; apply total_ok]. }
    induction t as [a|r|c|i|u IH n]; intros [|[s v] rest]; try apply Z;
      cbn [init]; destruct (implicit user s _); try apply total_ok; try apply total_ill.
    destruct n as [|n]; [apply total_ill|]. apply total_bind; [apply total_init_elems; exact IH|intros [vs r] _; apply total_ok].
  Qed.
  Lemma total_braced : forall t n cs, total (braced user default_of t n cs).
  Proof.
    intros t n cs. assert (G : total (do ' (vs, rest) <- init_elems (init user default_of t) n cs; match rest with [] => Ok (VArr vs) | _ => IllFormed end)).
    { apply total_bind; [apply total_init_elems; intro; apply total_init|]. intros [vs [|r rest]] _; [apply total_ok|apply total_ill]. }
    unfold braced. destruct cs as [|[s v] [|c cs]]; try exact G. destruct (ty_eqb s _); [apply total_ok|exact G].
  Qed.

  Definition copied (T : ty) (cs : list (ty * val)) : Prop := exists v, cs = [(Arr T 1, v)].
  Lemma braced_elems : forall T cs, ~ copied T cs -> braced user default_of T (length cs) cs =
    do ' (vs, rest) <- init_elems (init user default_of T) (length cs) cs; match rest with [] => Ok (VArr vs) | _ => IllFormed end.
  Proof.
    intros T [|[s v] [|c cs]] H; try reflexivity. cbn [length]. unfold braced. rewrite ty_eqb_neq; [reflexivity|].
    intros ->. apply H. exists v. reflexivity.
  Qed.
  Lemma braced_conv : forall T cs ws, ~ copied T cs -> Forall2 (conv_to T) cs ws ->
    braced user default_of T (length cs) cs = Ok (VArr ws).
  Proof.
    intros T cs ws NC H. rewrite braced_elems by assumption. rewrite <- (app_nil_r cs) at 2.
    rewrite (init_elems_conv T cs ws []) by assumption. reflexivity.
  Qed.
  Lemma braced_scalar : forall T cs v, ~ is_array T -> ~ copied T cs ->
    braced user default_of T (length cs) cs = Ok v -> exists ws, Forall2 (conv_to T) cs ws /\ v = VArr ws.
  Proof.
    intros T cs v NA NC H. rewrite braced_elems in H by assumption. apply bind_ok_inv in H. destruct H as [[vs rest] [E H]].
    apply init_elems_scalar in E; [|assumption]. destruct E as [E ->]. injection H as <-. exists vs. auto.
  Qed.
  Lemma braced_same : forall T vs, braced user default_of T (length vs) (map (fun v => (T, v)) vs) = Ok (VArr vs).
  Proof.
    intros T vs. rewrite <- (map_length (fun v => (T, v)) vs). apply braced_conv.
    - intros [v E]. destruct vs as [|x [|y vs]]; try discriminate E. cbn [map] in E. injection E as E _. exact (not_own_array T 1 E).
    - induction vs as [|v vs IH]; constructor; [|exact IH]. exists (fun v => v). unfold implicit. cbn [fst snd]. rewrite ty_eqb_refl. auto.
  Qed.
  (** Conversions of clauses as the specification has them. *)
  Lemma conv_to_iff : forall T c w, proper (fst c) -> conv_to T c w <-> converted user (fst c) T (snd c) w.
  Proof.
    intros T c w P. split.
    - intros [f [E ->]]. apply implicit_sound; assumption.
    - intro H. apply implicit_complete in H; assumption.
  Qed.
  Lemma conv_to_all : forall T cs ws, Forall (fun c => proper (fst c)) cs ->
    Forall2 (conv_to T) cs ws <-> Forall2 (fun c w => converted user (fst c) T (snd c) w) cs ws.
  Proof.
    intros T cs ws P. split; intro H; induction H as [|c w cs ws Hc H IH]; constructor; inversion P; subst;
      try (apply conv_to_iff; assumption); apply IH; assumption.
  Qed.

  (** ** Left-out braces *)
  (** [shaped dims v l]: the scalars of the array [v] of the given dimensions, in order. *)
  Inductive shaped : list nat -> val -> list val -> Prop :=
  | shaped_nil : forall v, shaped [] v [v]
  | shaped_cons : forall dims vs ls, Forall2 (shaped dims) vs ls -> shaped (length vs :: dims) (VArr vs) (concat ls).

  Variable T : ty.
  Variable z : val.
  Hypothesis T_scalar : ~ is_array T.
  Hypothesis T_zero : zero default_of T = Ok z.

  Definition fill (k : nat) (ws : list val) : list val := firstn k (ws ++ repeat z k).
  Lemma fill_nil : forall k, fill k [] = repeat z k.
  Proof. intro k. unfold fill. cbn [app]. rewrite <- (repeat_length z k) at 1. apply firstn_all. Qed.
  Lemma fill_cons : forall k w ws, fill (S k) (w :: ws) = w :: fill k ws.
  Proof.
    intros k w ws. unfold fill. cbn [app firstn]. f_equal. rewrite !firstn_app. f_equal.
    destruct (Nat.le_gt_cases k (length ws)) as [L|G].
    - replace (k - length ws)%nat with O by lia. reflexivity.
    - assert (Q : forall m j, (j <= m)%nat -> firstn j (repeat z m) = repeat z j).
      { intro m. induction m as [|m IH]; intros [|j] Hj; try reflexivity; [lia|]. cbn. f_equal. apply IH. lia. }
      rewrite !Q by lia. reflexivity.
  Qed.
  Lemma fill_add : forall k m ws, fill (k + m) ws = fill k ws ++ fill m (skipn k ws).
  Proof.
    induction k as [|k IH]; intros m ws; [reflexivity|]. destruct ws as [|w ws].
    - rewrite skipn_nil, !fill_nil. apply repeat_app.
    - cbn [Nat.add skipn]. rewrite !fill_cons. cbn [app]. f_equal. apply IH.
  Qed.
  Lemma fill_length : forall k ws, length (fill k ws) = k.
  Proof. intros k ws. unfold fill. rewrite firstn_length, app_length, repeat_length. lia. Qed.

  (** The clauses [cs] are scalars that become [ws]. *)
  Definition clause_ok (c : ty * val) (w : val) : Prop :=
    conv_to T c w /\ forall u n, implicit user (fst c) (Arr u n) = NoConv.

  Lemma zero_shaped : forall dims, Forall (fun d => d <> O) dims ->
    exists v, zero default_of (mdarray T dims) = Ok v /\ shaped dims v (repeat z (volume dims)).
  Proof.
    induction dims as [|d dims IH]; intro P.
    - exists z. split; [exact T_zero|]. apply shaped_nil.
    - inversion P as [|? ? _ P']; subst. destruct (IH P') as [v [E Sh]]. exists (VArr (repeat v d)). cbn [mdarray zero]. split.
      + rewrite (mapM_ok _ _ _ (fun _ => v)) by (intros; exact E). cbn [bind]. f_equal. f_equal.
        clear. generalize 0%nat. induction d as [|d IH]; intro k; [reflexivity|]. cbn. f_equal. apply IH.
      + rewrite <- (repeat_length v d) at 1.
        replace (repeat z (volume (d :: dims))) with (concat (repeat (repeat z (volume dims)) d)).
        * apply shaped_cons. clear -Sh. induction d; constructor; auto.
        * cbn [volume fold_right]. clear. fold (volume dims). induction d as [|d IH]; [reflexivity|]. cbn [repeat concat Nat.mul].
          rewrite repeat_app, IH. reflexivity.
  Qed.

  Lemma Forall2_skipn : forall A B (R : A -> B -> Prop) k l l', Forall2 R l l' -> Forall2 R (skipn k l) (skipn k l').
  Proof.
    intros A B R k. induction k as [|k IH]; intros l l' H; [exact H|]. destruct H; [constructor|]. cbn [skipn]. apply IH. assumption.
  Qed.

  Lemma elems_shaped : forall dims,
    (forall cs ws, Forall2 clause_ok cs ws -> exists v, init user default_of (mdarray T dims) cs = Ok (v, skipn (volume dims) cs) /\
       shaped dims v (fill (volume dims) ws)) ->
    forall n cs ws, Forall2 clause_ok cs ws ->
    exists vs ls, init_elems (init user default_of (mdarray T dims)) n cs = Ok (vs, skipn (n * volume dims) cs) /\
      length vs = n /\ Forall2 (shaped dims) vs ls /\ concat ls = fill (n * volume dims) ws.
  Proof.
    intros dims H n. induction n as [|n IH]; intros cs ws F.
    - exists [], []. repeat split; try constructor.
    - destruct (H cs ws F) as [v [E Sh]]. cbn [init_elems]. rewrite E. cbn [bind].
      destruct (IH _ _ (Forall2_skipn _ _ _ (volume dims) _ _ F)) as [vs [ls [E2 [L [F2 C]]]]].
      rewrite E2. cbn [bind]. exists (v :: vs), (fill (volume dims) ws :: ls).
      assert (SK : forall a b (l : list (ty * val)), skipn a (skipn b l) = skipn (b + a) l).
      { intros a b. revert a. induction b as [|b IHb]; intros a l; [reflexivity|]. destruct l; [rewrite !skipn_nil; reflexivity|]. cbn [skipn Nat.add]. apply IHb. }
      split; [rewrite SK; reflexivity|]. split; [cbn; lia|]. split; [constructor; assumption|].
      cbn [concat Nat.mul]. rewrite C, fill_add. reflexivity.
  Qed.

  Lemma init_shaped : forall dims, Forall (fun d => d <> O) dims -> forall cs ws, Forall2 clause_ok cs ws ->
    exists v, init user default_of (mdarray T dims) cs = Ok (v, skipn (volume dims) cs) /\ shaped dims v (fill (volume dims) ws).
  Proof.
    induction dims as [|d dims IH]; intros P cs ws F.
    - destruct F as [|c w cs ws [Hc _] F].
      + exists z. split; [|apply shaped_nil]. cbn [mdarray]. destruct T; cbn [init]; rewrite T_zero; reflexivity.
      + exists w. cbn [mdarray]. split; [apply init_conv; assumption|]. cbn [volume fold_right]. rewrite fill_cons. apply shaped_nil.
    - inversion P as [|? ? Pd P']; subst. destruct d as [|d]; [contradiction|]. destruct F as [|c w cs ws Hc F].
      + destruct (zero_shaped (S d :: dims) P) as [v [E Sh]]. exists v. rewrite fill_nil, skipn_nil. split; [|exact Sh].
        cbn [mdarray init] in *. rewrite E. reflexivity.
      + assert (F' : Forall2 clause_ok (c :: cs) (w :: ws)) by (constructor; assumption).
        destruct (elems_shaped dims (IH P') (S d) _ _ F') as [vs [ls [E [L [F2 C]]]]].
        exists (VArr vs). split.
        * destruct c as [s v]. cbn [mdarray init]. rewrite (proj2 Hc : forall u n, implicit user s (Arr u n) = NoConv). rewrite E. reflexivity.
        * cbn [volume fold_right]. fold (volume dims). rewrite <- C, <- L. apply shaped_cons. assumption.
  Qed.

  Lemma braced_shaped : forall dims cs ws, Forall (fun d => d <> O) dims -> Forall2 clause_ok cs ws ->
    exists v, braced user default_of (mdarray T dims) (length cs) cs = Ok v /\
      shaped (length cs :: dims) v (fill (length cs * volume dims) ws).
  Proof.
    intros dims cs ws P F. destruct (elems_shaped dims (init_shaped dims P) (length cs) cs ws F) as [vs [ls [E [L [F2 C]]]]].
    exists (VArr vs). split.
    - rewrite braced_elems.
      + rewrite E. cbn [bind]. rewrite skipn_all2; [reflexivity|]. assert (1 <= volume dims)%nat; [|nia].
        clear -P. induction P as [|d dims Pd P IH]; [cbn; lia|]. cbn [volume fold_right]. fold (volume dims). nia.
      + intros [v ->]. inversion F as [|c w ? ? Hc F']; subst. pose proof (proj2 Hc (mdarray T dims) 1%nat) as Q. cbn [fst] in Q.
        unfold implicit in Q. rewrite ty_eqb_refl in Q. discriminate Q.
    - rewrite <- C, <- L. apply shaped_cons. assumption.
  Qed.
End Init.

(** ** Row-major order *)
Lemma concat_blocks : forall A (ls : list (list A)) k i j l, Forall (fun x => length x = k) ls -> nth_error ls i = Some l -> (j < k)%nat ->
  nth_error (concat ls) (i * k + j) = nth_error l j.
Proof.
  intros A ls k. induction ls as [|x ls IH]; intros i j l F H J; [destruct i; discriminate H|]. inversion F; subst.
  destruct i as [|i]; cbn [nth_error concat] in *.
  - injection H as ->. rewrite nth_error_app1 by lia. reflexivity.
  - rewrite nth_error_app2 by lia. rewrite <- (IH i j l) by assumption. f_equal. lia.
Qed.
Lemma shaped_length : forall dims v l, shaped dims v l -> length l = volume dims.
Proof.
  induction dims as [|d dims IH]; intros v l H; inversion H; subst; [reflexivity|]. cbn [volume fold_right]. fold (volume dims).
  match goal with F : Forall2 _ _ _ |- _ => induction F as [|v0 l0 vs0 ls0 S F IHF]; [reflexivity|] end.
  cbn [concat length Nat.mul]. rewrite app_length, (IH _ _ S). rewrite IHF; [reflexivity|]. constructor. assumption.
Qed.
Lemma position_acc : forall dims idx acc, length idx = length dims -> position dims idx acc = (acc * volume dims + position dims idx 0)%nat.
Proof.
  induction dims as [|d dims IH]; intros [|i idx] acc L; try discriminate L; cbn [position volume fold_right]; [lia|].
  fold (volume dims). injection L as L. rewrite IH by assumption. rewrite (IH idx (0 * d + i)%nat) by assumption. nia.
Qed.
Lemma position_bound : forall dims idx, Forall2 (fun d i => (i < d)%nat) dims idx -> (position dims idx 0 < volume dims)%nat.
Proof.
  intros dims idx H. induction H as [|d i dims idx Hi H IH]; [cbn; lia|]. cbn [position volume fold_right]. fold (volume dims).
  rewrite position_acc by (clear -H; induction H; cbn; congruence). nia.
Qed.
Lemma shaped_at : forall dims v l idx, shaped dims v l -> Forall2 (fun d i => (i < d)%nat) dims idx ->
  at_index v idx = nth_error l (position dims idx 0).
Proof.
  induction dims as [|d dims IH]; intros v l idx H F; inversion F as [|? i ? idx' Hi F']; subst; inversion H as [|? vs ls F2]; subst; [reflexivity|].
  cbn [at_index position]. rewrite Nat.mul_0_l, Nat.add_0_l.
  assert (exists w lw, nth_error vs i = Some w /\ nth_error ls i = Some lw /\ shaped dims w lw) as [w [lw [Ew [El Sh]]]].
  { clear -F2 Hi. revert i Hi. induction F2 as [|w lw vs ls S F IH]; intros i Hi; [cbn in Hi; lia|].
    destruct i as [|i]; [exists w, lw; auto|]. cbn in Hi. apply (IH i). lia. }
  rewrite Ew, (IH w lw idx') by assumption.
  rewrite (position_acc dims idx' i) by (clear -F'; induction F'; cbn; congruence).
  rewrite concat_blocks with (l := lw); [reflexivity| |assumption|apply position_bound; assumption].
  clear -F2. induction F2 as [|w lw vs ls S F IH]; constructor; [apply (shaped_length _ _ _ S)|assumption].
Qed.

(** ** Arguments *)
Lemma element_of_iff : forall i a p v, element_of i a p v <-> element_type i a = Some p /\ element_value i a = v.
Proof.
  intros i [[es|c t vs| |] ac al] p v; unfold element_type, element_value; cbn [a_kind a_const a_lvalue]; split.
  - intro H. inversion H as [? ? ? c t ? E| | |]; subst. rewrite E. auto.
  - intros [H1 H2]. destruct (nth_error es i) as [[[c t] w]|] eqn:E; [|discriminate H1]. injection H1 as <-. subst w. constructor. assumption.
  - intro H. inversion H as [|? ? ? ? ? ? E| |]; subst. rewrite E. auto.
  - intros [H1 H2]. destruct (nth_error vs i) as [w|] eqn:E; [|discriminate H1]. injection H1 as <-. subst w. constructor. assumption.
  - intro H. inversion H; subst. auto.
  - intros [H1 H2]. injection H1 as <-. subst v. constructor.
  - intro H. inversion H; subst. auto.
  - intros [H1 H2]. injection H1 as <-. subst v. constructor.
Qed.

Lemma element_types_iff : forall i args es,
  Forall2 (fun a e => element_of i a (fst e) (snd e)) args es <->
  element_types i args = Ok (map fst es) /\ map (element_value i) args = map snd es.
Proof.
  intros i args. unfold element_types. induction args as [|a args IH]; intros es; split.
  - intro H. inversion H; subst. auto.
  - intros [H1 H2]. destruct es; [constructor|discriminate H2].
  - intro H. inversion H as [|? e ? es' He H']; subst. apply element_of_iff in He. destruct He as [E1 E2]. apply IH in H'. destruct H' as [F1 F2].
    cbn [map mapM]. rewrite E1, E2. cbn [to_outcome bind]. rewrite F1, F2. auto.
  - intros [H1 H2]. destruct es as [|e es]; [discriminate H2|]. cbn [map mapM] in *. injection H2 as E2 F2.
    destruct (element_type i a) as [p|] eqn:E1; [|discriminate H1]. cbn [to_outcome bind] in H1. apply bind_ok_inv in H1.
    destruct H1 as [ps [F1 H1]]. injection H1 as -> ->. constructor; [apply element_of_iff; auto|]. apply IH. rewrite F1. auto.
Qed.
Lemma element_types_ok : forall i args ps, element_types i args = Ok ps ->
  exists es, Forall2 (fun a e => element_of i a (fst e) (snd e)) args es /\ ps = map fst es.
Proof.
  intros i args ps H. exists (combine ps (map (element_value i) args)).
  assert (L : length ps = length (map (element_value i) args)).
  { rewrite map_length. apply mapM_inv in H. clear -H. induction H; cbn; congruence. }
  assert (M : forall A B (l : list A) (l' : list B), length l = length l' -> map fst (combine l l') = l /\ map snd (combine l l') = l').
  { intros A B l. induction l as [|x l IH]; intros [|y l'] E; try discriminate E; [auto|]. injection E as E. cbn.
    destruct (IH l' E) as [-> ->]. auto. }
  destruct (M _ _ _ _ L) as [M1 M2]. split; [|symmetry; exact M1]. apply element_types_iff. rewrite M1, M2. auto.
Qed.
Lemma combine_fst_snd : forall A B (l : list (A * B)), combine (map fst l) (map snd l) = l.
Proof. intros A B l. induction l as [|[a b] l IH]; [reflexivity|]. cbn. f_equal. exact IH. Qed.
Lemma element_types_unique : forall i args es es',
  Forall2 (fun a e => element_of i a (fst e) (snd e)) args es -> Forall2 (fun a e => element_of i a (fst e) (snd e)) args es' -> es = es'.
Proof.
  intros i args es es' H H'. apply element_types_iff in H, H'. destruct H as [A1 A2], H' as [B1 B2].
  rewrite <- (combine_fst_snd _ _ es), <- (combine_fst_snd _ _ es'). congruence.
Qed.
Lemma total_element_types : forall i args, total (element_types i args).
Proof. intros i args. apply total_mapM. intro a. destruct (element_type i a); [apply total_ok|apply total_ill]. Qed.

Lemma nth_error_same : forall A (l l' : list A), (forall i, nth_error l i = nth_error l' i) -> l = l'.
Proof.
  intros A l. induction l as [|a l IH]; intros [|b l'] H; try reflexivity; try (specialize (H 0%nat); discriminate H).
  pose proof (H 0%nat) as H0. injection H0 as <-. f_equal. apply IH. intro i. exact (H (S i)).
Qed.

Section Functors.
  Variable call_type : bool -> list pty -> option rty.
  Variable call : list (pty * val) -> val.

  Lemma transform_element_of : forall args i r v, result_of call_type call args i r v ->
    transform_element call_type call i args = Ok (r_ty r, v).
  Proof.
    intros args i r v [es [F [C ->]]]. apply element_types_iff in F. destruct F as [F1 F2]. unfold transform_element.
    rewrite F1. cbn [bind]. rewrite C, F2, combine_fst_snd. reflexivity.
  Qed.
  Lemma transform_element_inv : forall args i t v, transform_element call_type call i args = Ok (t, v) ->
    exists r, result_of call_type call args i r v /\ r_ty r = t.
  Proof.
    intros args i t v H. unfold transform_element in H. apply bind_ok_inv in H. destruct H as [ps [E H]].
    destruct (call_type false ps) as [r|] eqn:C; [|discriminate H]. injection H as <- <-.
    destruct (element_types_ok _ _ _ E) as [es [F ->]]. exists r. split; [|reflexivity]. exists es. split; [exact F|]. split; [exact C|].
    apply element_types_iff in F. destruct F as [_ F2]. rewrite F2, combine_fst_snd. reflexivity.
  Qed.
  Lemma total_transform_element : forall args i, total (transform_element call_type call i args).
  Proof.
    intros args i. apply total_bind; [apply total_element_types|]. intros ps _. destruct (call_type false ps); [apply total_ok|apply total_ill].
  Qed.

  Definition clauses (rs : list (rty * val)) : list (ty * val) := map (fun p => (r_ty (fst p), snd p)) rs.
  Lemma results_mapM : forall args n rs, results call_type call args n rs ->
    mapM (fun i => transform_element call_type call i args) (seq 0 n) = Ok (clauses rs).
  Proof.
    intros args n rs [L H]. apply mapM_inv. subst n.
    assert (G : forall rs' k, (forall j r v, nth_error rs' j = Some (r, v) -> result_of call_type call args (k + j) r v) ->
      Forall2 (fun i c => transform_element call_type call i args = Ok c) (seq k (length rs')) (clauses rs')).
    { induction rs' as [|[r v] rs' IH]; intros k G; cbn [length seq clauses map]; constructor.
      - apply transform_element_of. specialize (G 0%nat r v eq_refl). rewrite Nat.add_0_r in G. exact G.
      - apply IH. intros j r' v' E. specialize (G (S j) r' v' E). rewrite Nat.add_succ_r in G. exact G. }
    apply G. exact H.
  Qed.
  Lemma mapM_results : forall args n cs, mapM (fun i => transform_element call_type call i args) (seq 0 n) = Ok cs ->
    exists rs, results call_type call args n rs /\ cs = clauses rs.
  Proof.
    intros args n cs H. apply mapM_inv in H.
    assert (G : forall n k cs, Forall2 (fun i c => transform_element call_type call i args = Ok c) (seq k n) cs ->
      exists rs, (length rs = n /\ forall j r v, nth_error rs j = Some (r, v) -> result_of call_type call args (k + j) r v) /\ cs = clauses rs).
    { clear n cs H. induction n as [|n IH]; intros k cs H; cbn [seq] in H; inversion H as [|? c ? cs' Hc H']; subst.
      - exists []. split; [split; [reflexivity|]|reflexivity]. intros [|j] r v E; discriminate E.
      - destruct c as [t v]. apply transform_element_inv in Hc. destruct Hc as [r [Hr <-]].
        destruct (IH _ _ H') as [rs [[L G] ->]]. exists ((r, v) :: rs). split; [split; [cbn; congruence|]|reflexivity].
        intros [|j] r' v' E; cbn [nth_error] in E.
        + injection E as <- <-. rewrite Nat.add_0_r. exact Hr.
        + rewrite Nat.add_succ_r. apply (G j r' v' E). }
    destruct (G n 0%nat cs H) as [rs [HR E]]. exists rs. split; [exact HR|exact E].
  Qed.
  Lemma results_unique : forall args n rs rs', results call_type call args n rs -> results call_type call args n rs' -> rs = rs'.
  Proof.
    intros args n rs rs' [L H] [L' H']. apply nth_error_same. intro i.
    destruct (nth_error rs i) as [[r v]|] eqn:E, (nth_error rs' i) as [[r' v']|] eqn:E'; try reflexivity.
    - destruct (H _ _ _ E) as [es [F [C ->]]]. destruct (H' _ _ _ E') as [es' [F' [C' ->]]].
      rewrite (element_types_unique _ _ _ _ F F') in *. congruence.
    - apply nth_error_None in E'. assert (i < length rs)%nat by (apply nth_error_Some; congruence). lia.
    - apply nth_error_None in E. assert (i < length rs')%nat by (apply nth_error_Some; congruence). lia.
  Qed.

  (** ** Sizes *)
  Lemma length_of_arg : forall a m, length_of a = Some m <-> exists l, to_arg a = ATuple l /\ length l = m.
  Proof.
    intros [[es|c t vs| |] ac al] m; unfold length_of, to_arg; cbn [a_kind]; split.
    - intro E. injection E as <-. exists (map snd es). split; [reflexivity|apply map_length].
    - intros [l [E <-]]. injection E as <-. rewrite map_length. reflexivity.
    - intro E. injection E as <-. exists vs. auto.
    - intros [l [E <-]]. injection E as <-. reflexivity.
    - discriminate.
    - intros [l [E _]]. discriminate E.
    - discriminate.
    - intros [l [E _]]. discriminate E.
  Qed.
  Lemma sized_ok : forall N args n, sized N args n -> tuple_transform_size N (map to_arg args) = Ok n.
  Proof.
    intros N args n [C [-> |[-> [a [Ha La]]]]].
    - rewrite size_given.
      + rewrite Nat2Z.id. reflexivity.
      + intros l1 l2 H1 H2. apply in_map_iff in H1, H2. destruct H1 as [a [E1 I1]], H2 as [b [E2 I2]].
        apply (C a b); auto; apply length_of_arg; [exists l1|exists l2]; auto.
      + lia.
    - apply size_common. apply length_of_arg in La. destruct La as [l [El Ll]]. split.
      + exists l. rewrite <- El. apply in_map. exact Ha.
      + intros l' H'. apply in_map_iff in H'. destruct H' as [b [E2 I2]]. apply (C b a); auto; apply length_of_arg; [exists l'|exists l]; auto.
  Qed.

  (** ** Deduction *)
  Lemma is_homogeneous_iff : forall a, is_homogeneous a = true <-> array_or_index a.
  Proof.
    intros [[es|c t vs| |] ac al]; unfold is_homogeneous, array_or_index; cbn [a_kind]; split; intro H; try discriminate H; auto.
    - destruct H as [[? [? [? E]]]|E]; discriminate E.
    - left. eauto.
    - destruct H as [[? [? [? E]]]|E]; discriminate E.
  Qed.
  Lemma all_homogeneous_iff : forall args, forallb is_homogeneous args = true <-> Forall array_or_index args.
  Proof.
    intro args. rewrite forallb_forall, Forall_forall. split; intros H a Ha; apply is_homogeneous_iff; auto.
  Qed.
  Lemma plain_homogeneous : forall args, Forall plain_array args -> forallb is_homogeneous args = true.
  Proof.
    intros args H. apply all_homogeneous_iff. eapply Forall_impl; [|exact H]. intros [[es|c t vs| |] ac al]; unfold plain_array, array_or_index; cbn [a_kind].
    - contradiction.
    - intros _. left. eauto.
    - auto.
    - contradiction.
  Qed.
  Lemma plain_types : forall i args es, Forall plain_array args -> Forall2 (fun a e => element_of i a (fst e) (snd e)) args es ->
    map fst es = map transferred_type args.
  Proof.
    intros i args es P F. induction F as [|a e args es He F IH]; [reflexivity|]. inversion P as [|? ? Pa P']; subst. cbn [map]. f_equal; [|apply IH; exact P'].
    destruct e as [p v]. cbn [fst snd] in *. unfold plain_array in Pa. inversion He; subst; cbn [a_kind a_const a_lvalue] in Pa; try contradiction.
    - destruct Pa as [-> Pc]. unfold transferred_type. cbn [a_kind a_const a_lvalue]. destruct al; [rewrite orb_false_r; reflexivity|].
      rewrite Pc by reflexivity. reflexivity.
    - subst al. reflexivity.
  Qed.
  Lemma unqualified_any : unqualified call_type -> forall b ps, call_type b ps = call_type false ps.
  Proof. intros H [|] ps; [apply H|reflexivity]. Qed.

  Lemma equal_types_spec : forall rs r, equal_types rs = Some r <-> rs <> [] /\ forall x, In x rs -> x = r.
  Proof.
    induction rs as [|a rs IH]; intro r; [split; [discriminate|intros [H _]; contradiction]|].
    destruct rs as [|b rs]; cbn [equal_types].
    - split.
      + intro E. injection E as <-. split; [discriminate|]. intros x [->|[]]. reflexivity.
      + intros [_ H]. rewrite (H a) by (left; reflexivity). reflexivity.
    - change (equal_types (b :: rs)) with (equal_types (b :: rs)) in IH. destruct (rty_eqb a b) eqn:E.
      + apply rty_eqb_eq in E. subst b. rewrite IH. split; intros [_ H]; split; try discriminate.
        * intros x [<-|Hx]; apply H; [left; reflexivity|exact Hx].
        * intros x Hx. apply H. right. exact Hx.
      + split; [discriminate|]. intros [_ H]. assert (a = b); [rewrite (H a), (H b); simpl; auto|]. apply rty_eqb_eq in H0. congruence.
  Qed.

  Lemma result_type_of : forall args i r v rvalue, unqualified call_type -> result_of call_type call args i r v ->
    result_type call_type rvalue args i = Ok r.
  Proof.
    intros args i r v rvalue U [es [F [C _]]]. apply element_types_iff in F. destruct F as [F1 _]. unfold result_type. rewrite F1.
    cbn [bind]. rewrite (unqualified_any U), C. reflexivity.
  Qed.
  Lemma result_types_mapM : forall args n rs rvalue, unqualified call_type -> results call_type call args n rs ->
    mapM (result_type call_type rvalue args) (seq 0 n) = Ok (map fst rs).
  Proof.
    intros args n rs rvalue U [L H]. apply mapM_inv. subst n.
    assert (G : forall rs' k, (forall j r v, nth_error rs' j = Some (r, v) -> result_of call_type call args (k + j) r v) ->
      Forall2 (fun i c => result_type call_type rvalue args i = Ok c) (seq k (length rs')) (map fst rs')).
    { induction rs' as [|[r v] rs' IH]; intros k G; cbn [length seq map]; constructor.
      - specialize (G 0%nat r v eq_refl). rewrite Nat.add_0_r in G. eapply result_type_of; eassumption.
      - apply IH. intros j r' v' E. specialize (G (S j) r' v' E). rewrite Nat.add_succ_r in G. exact G. }
    apply G. exact H.
  Qed.
End Functors.
