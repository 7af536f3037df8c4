(** Proof that the round trip of all flags combinations is decided by the combinations of at most two flags. *)

From Coq Require Import String Ascii ZArith NArith Arith Bool List Lia.
From Verif Require Import Base SerializeModel SerializeSpec SerializeProofs SerializeFlagsProofs.
Import ListNotations.

(** ** Pieces of concatenated names *)

Lemma splits_app : forall a pa, splits a pa -> forall b pb d, delim d -> splits b pb -> splits (a ++ d :: b) (pa ++ pb).
Proof.
  induction 1 as [p Hp|p e s ps Hp He Hs IH]; intros b pb d Hd Hb.
  - simpl. constructor; auto.
  - rewrite <- app_assoc. simpl. constructor; auto.
Qed.

Lemma splits_nonempty : forall s ps, splits s ps -> ps <> [].
Proof. destruct 1; discriminate. Qed.

Lemma splits_exist : forall s, exists ps, splits s ps.
Proof. intro s. destruct (ffs_pieces (length s) s (le_n _)) as [ps [e [H _]]]; eauto. Qed.

Lemma effective_app : forall pa pb e, effective pb e -> effective (pa ++ pb) (pa ++ e).
Proof. induction pa; simpl; intros; auto. apply effective_cons; auto. Qed.

Lemma effective_exists : forall ps, ps <> [] -> exists e, effective ps e.
Proof.
  intros ps H. destruct (exists_last H) as [l [x ->]].
  destruct (trim x) eqn:E.
  - exists l, x. rewrite removelast_last. split; auto. left; split; auto. apply trim_nil_blank; auto.
  - exists (l ++ [x]), x. rewrite removelast_last. split; auto. right; split; auto.
    intro Hb. apply trim_nil_blank in Hb. congruence.
Qed.

(** ** Increasing lists of positions *)

Lemma increasing_ext : forall a b, increasing a -> increasing b -> (forall i, In i a <-> In i b) -> a = b.
Proof.
  induction a as [|x a IH]; intros [|y b] Ha Hb H; auto.
  - exfalso. apply (H y); left; auto.
  - exfalso. apply (H x); left; auto.
  - destruct Ha as [A1 A2], Hb as [B1 B2].
    assert (x = y).
    { assert (Hx : In x (y :: b)) by (apply H; left; auto). assert (Hy : In y (x :: a)) by (apply H; left; auto).
      destruct Hx as [Hx|Hx]; [auto|]. destruct Hy as [Hy|Hy]; [auto|]. apply B1 in Hx. apply A1 in Hy. lia. }
    subst y. f_equal. apply IH; auto. intro i. split; intro Hi.
    + assert (In i (x :: b)) as [E|E] by (apply H; right; auto); auto. apply A1 in Hi. lia.
    + assert (In i (x :: a)) as [E|E] by (apply H; right; auto); auto. apply B1 in Hi. lia.
Qed.

(** ** Combinations of at most two flags *)

Section Pairs.
  Variables (w : N) (src : enum_source N) (vs : list N) (ns : list str) (indet : N).
  Hypothesis Hal : aligned (src_values src) (src_names src) vs ns.
  Hypothesis Hok : Forall (name_ok flags_reserved) ns.
  Hypothesis Hcov : bits_covered vs.

  Definition comes_back (f : N) : Prop :=
    exists s, api_flags_to_string w src f = Ok s /\ api_parse_flags indet src s = Ok f.

  Variables (vs' : list N) (ns' : list str).
  Hypothesis Hr : reordered vs ns vs' ns'.
  Hypothesis HP : forall s f, api_parse_flags indet src s = Ok f <-> flags_text vs' ns' s f.

  Lemma names_nonempty' : forall n, In n ns' -> n <> [].
  Proof.
    intros n Hn. pose proof Hal as [_ [_ Hl]]. pose proof Hr as [R1 [R2 R3]].
    apply In_nth_error in Hn as [j Hj].
    assert (exists v, nth_error vs' j = Some v) as [v Hv].
    { destruct (nth_error vs' j) eqn:E; eauto. apply nth_error_None in E.
      assert (j < length ns') by (apply nth_error_Some; congruence). lia. }
    assert (In (v, n) (combine vs ns)) as Hin.
    { apply (reordered_in vs ns vs' ns'); auto. eapply nth_combine; eauto. }
    apply in_combine_r in Hin. eapply name_ok_nonempty; eauto.
  Qed.

  Lemma piece_not_blank : forall p v, piece_value vs' ns' p v -> ~ blank p.
  Proof.
    intros p v [t [Hp [k [[Hk _] _]]]] Hb. apply padded_iff in Hp. subst t.
    apply trim_nil_blank in Hb. apply (names_nonempty' (trim p)); auto. eapply nth_error_In; eauto.
  Qed.

  Lemma piece_value_fun : forall p v u, piece_value vs' ns' p v -> piece_value vs' ns' p u -> v = u.
  Proof.
    intros p v u [t [H1 H2]] [t' [H3 H4]]. apply padded_iff in H1, H3. subst. eapply value_of_name_fun; eauto.
  Qed.

  Lemma pieces_fun : forall ps fs gs, Forall2 (piece_value vs' ns') ps fs -> Forall2 (piece_value vs' ns') ps gs -> fs = gs.
  Proof.
    induction ps as [|p ps IH]; intros fs gs F G; inversion F; inversion G; subst; auto. f_equal; eauto using piece_value_fun.
  Qed.

  (** The text of the flags at the positions [il]. *)
  Lemma text_of_positions : forall f il names, (f < 2 ^ w)%N -> f <> 0%N ->
    (forall k, N.testbit f k = true -> bit_defined vs k) ->
    increasing il -> (forall i, In i il <-> chosen vs f i) ->
    Forall2 (fun i n => nth_error ns i = Some n) il names ->
    api_flags_to_string w src f = Ok (join (lit "+") names).
  Proof.
    intros f il names Hf Hz Hd I1 I2 I3.
    destruct (flags_to_string_exact w src vs ns Hal Hok Hcov f Hf) as [T _].
    destruct (T Hd) as [s [Hs [T1 _]]]. destruct (T1 Hz) as [[jl [names' [J1 [J2 [J3 ->]]]]] _].
    assert (jl = il).
    { apply increasing_ext; auto. intro i. rewrite J2, I2. tauto. }
    subst jl. assert (names' = names).
    { clear -I3 J3. revert names I3. induction J3; intros m I3; inversion I3; subst; auto. f_equal; [congruence|auto]. }
    congruence.
  Qed.

  Definition first_bit (i : nat) (k : N) : Prop := first_pos vs (2 ^ k)%N i.

  Lemma chosen_iff : forall f i, chosen vs f i <-> exists k, first_bit i k /\ N.testbit f k = true.
  Proof. intros f i. unfold chosen, first_bit, first_pos. split; intros [k H]; exists k; tauto. Qed.

  Lemma pow_lt : forall f k, (f < 2 ^ w)%N -> N.testbit f k = true -> (k < w)%N.
  Proof.
    intros f k Hf Hk. destruct (N.lt_ge_cases k w); auto.
    rewrite N.bits_above_log2 in Hk; [discriminate|].
    destruct (N.eq_dec f 0) as [->|]; [rewrite N.bits_0 in Hk; discriminate|].
    apply N.log2_lt_pow2 in Hf; lia.
  Qed.

  Lemma pair_bit : forall j k b, N.testbit (N.lor (2 ^ j) (2 ^ k)) b = true <-> b = j \/ b = k.
  Proof.
    intros. rewrite N.lor_spec, orb_true_iff, !N.pow2_bits_eqb, !N.eqb_eq. intuition.
  Qed.

  Lemma pair_lt : forall j k, (j < w)%N -> (k < w)%N -> (N.lor (2 ^ j) (2 ^ k) < 2 ^ w)%N.
  Proof.
    intros j k Hj Hk. set (f := N.lor (2 ^ j) (2 ^ k)).
    assert (f <> 0)%N. { intro E. assert (N.testbit f j = true) by (apply pair_bit; auto). rewrite E, N.bits_0 in H. discriminate. }
    apply N.log2_lt_pow2; [lia|]. assert (Hb : N.testbit f (N.log2 f) = true) by (apply N.bit_log2; auto).
    apply pair_bit in Hb as [->| ->]; auto.
  Qed.

  Section Given.
    Variable f : N.
    Hypothesis Hf : (f < 2 ^ w)%N.
    Hypothesis Hd : forall k, N.testbit f k = true -> bit_defined vs k.
    Hypothesis Hpairs : forall j k, (j < w)%N -> (k < w)%N -> bit_defined vs j -> bit_defined vs k -> comes_back (N.lor (2 ^ j) (2 ^ k)).

    Lemma pair_nonzero : forall j k, N.lor (2 ^ j) (2 ^ k) <> 0%N.
    Proof.
      intros j k E. assert (H : N.testbit (N.lor (2 ^ j) (2 ^ k)) j = true) by (apply pair_bit; auto).
      rewrite E, N.bits_0 in H. discriminate.
    Qed.

    Lemma single_text : forall i n k, first_bit i k -> N.testbit f k = true -> nth_error ns i = Some n -> flags_text vs' ns' n (2 ^ k)%N.
    Proof.
      intros i n k Hi Hk Hn. pose proof (pow_lt f k Hf Hk) as Hkw.
      destruct (Hpairs k k Hkw Hkw (Hd k Hk) (Hd k Hk)) as [s [S1 S2]].
      rewrite N.lor_diag in *.
      rewrite (text_of_positions (2 ^ k)%N [i] [n]) in S1; auto.
      - inversion S1; subst s. apply HP; auto.
      - rewrite <- (N.lor_diag (2 ^ k)). apply pair_lt; auto.
      - rewrite <- (N.lor_diag (2 ^ k)). apply pair_nonzero.
      - intros b Hb. rewrite N.pow2_bits_eqb in Hb. apply N.eqb_eq in Hb; subst; auto.
      - simpl. split; auto. intros b [].
      - intro x. rewrite chosen_iff. simpl. split.
        + intros [<-|[]]. exists k. split; auto. apply N.pow2_bits_true.
        + intros [b [B1 B2]]. rewrite N.pow2_bits_eqb in B2. apply N.eqb_eq in B2; subst b. left.
          eapply first_pos_fun; eauto.
    Qed.

    Lemma pair_text : forall i n k j m l, i < j -> first_bit i k -> N.testbit f k = true -> nth_error ns i = Some n ->
      first_bit j l -> N.testbit f l = true -> nth_error ns j = Some m ->
      flags_text vs' ns' (n ++ "+"%char :: m) (N.lor (2 ^ k) (2 ^ l)).
    Proof.
      intros i n k j m l Hij Hi Hk Hn Hj Hl Hm.
      pose proof (pow_lt f k Hf Hk) as Hkw. pose proof (pow_lt f l Hf Hl) as Hlw.
      destruct (Hpairs k l Hkw Hlw (Hd k Hk) (Hd l Hl)) as [s [S1 S2]].
      rewrite (text_of_positions (N.lor (2 ^ k) (2 ^ l)) [i; j] [n; m]) in S1; auto.
      - inversion S1; subst s. apply HP; auto.
      - apply pair_lt; auto.
      - apply pair_nonzero.
      - intros b Hb. apply pair_bit in Hb as [->| ->]; auto.
      - simpl. split; [|split; auto]; intros b Hb; [destruct Hb as [<-|[]]; auto|contradiction].
      - intro x. rewrite chosen_iff. simpl. split.
        + intros [<-|[<-|[]]]; [exists k|exists l]; split; auto; apply pair_bit; auto.
        + intros [b [B1 B2]]. apply pair_bit in B2 as [->| ->]; [left|right; left]; eapply first_pos_fun; eauto.
    Qed.

    (** All pieces of a name that is followed by another one have values; together they denote the flag. *)
    Lemma inner_pieces : forall i n k j m l ps, i < j -> first_bit i k -> N.testbit f k = true -> nth_error ns i = Some n ->
      first_bit j l -> N.testbit f l = true -> nth_error ns j = Some m -> splits n ps ->
      exists fs, Forall2 (piece_value vs' ns') ps fs /\ (forall b, (exists v, In v fs /\ N.testbit v b = true) <-> b = k).
    Proof.
      intros i n k j m l ps Hij Hi Hk Hn Hj Hl Hm Hps.
      destruct (pair_text i n k j m l) as [qs [e [fs [Q1 [Q2 [Q3 _]]]]]]; auto.
      destruct (splits_exist m) as [pm Hpm].
      assert (qs = ps ++ pm).
      { eapply splits_fun; eauto. apply splits_app; auto. left; auto. }
      subst qs. destruct (effective_exists pm (splits_nonempty _ _ Hpm)) as [em Hem].
      assert (e = ps ++ em) by (eapply effective_fun; eauto using effective_app). subst e.
      apply Forall2_app_inv_l in Q3 as [fa [fb [F1 [_ ->]]]].
      exists fa. split; auto.
      destruct (single_text i n k) as [qs [e [gs [G1 [G2 [G3 G4]]]]]]; auto.
      assert (qs = ps) by (eapply splits_fun; eauto). subst qs.
      assert (e = ps).
      { destruct G2 as [x [X1 [[X2 _]|[_ X3]]]]; auto. exfalso. rewrite X1 in F1.
        apply Forall2_app_inv_l in F1 as [ga [gb [_ [Y _]]]]. inversion Y; subst. eapply piece_not_blank; eauto. }
      subst e. assert (gs = fa) by (eapply pieces_fun; eauto). subst gs.
      intro b. rewrite <- G4, N.pow2_bits_eqb, N.eqb_eq. split; auto.
    Qed.

    Lemma text_denotes : forall il names, il <> [] -> increasing il ->
      (forall i, In i il -> exists k, first_bit i k /\ N.testbit f k = true) ->
      Forall2 (fun i n => nth_error ns i = Some n) il names ->
      exists ps e fs, splits (join (lit "+") names) ps /\ effective ps e /\ Forall2 (piece_value vs' ns') e fs /\
        forall b, (exists v, In v fs /\ N.testbit v b = true) <-> exists i, In i il /\ first_bit i b.
    Proof.
      induction il as [|i il IH]; intros names Hne Hinc Hch HF; [congruence|].
      inversion HF as [|? n ? rest Hn Hrest]; subst. destruct (Hch i (or_introl eq_refl)) as [k [K1 K2]].
      assert (Hfirst : forall b, first_bit i b <-> b = k).
      { intro b. split; [|intros ->; auto]. intros [B _]. destruct K1 as [K1 _]. rewrite B in K1. inversion K1.
        eapply N.pow_inj_r; eauto. lia. }
      destruct il as [|j il].
      - inversion Hrest; subst. simpl. destruct (single_text i n k) as [ps [e [fs [G1 [G2 [G3 G4]]]]]]; auto.
        exists ps, e, fs. repeat split; auto.
        + intro X. apply G4 in X. rewrite N.pow2_bits_eqb in X. apply N.eqb_eq in X. subst. eauto.
        + intros [x [[<-|[]] B]]. apply Hfirst in B. subst. apply G4. apply N.pow2_bits_true.
      - destruct Hinc as [Hlt Hinc]. inversion Hrest as [|? m ? rest' Hm Hrest']; subst.
        destruct (Hch j) as [l [L1 L2]]; [right; left; auto|].
        destruct (splits_exist n) as [pn Hpn].
        destruct (inner_pieces i n k j m l pn) as [fn [N1 N2]]; auto. { apply Hlt; left; auto. }
        destruct (IH (m :: rest')) as [ps [e [fs [G1 [G2 [G3 G4]]]]]]; auto; [discriminate|intros; apply Hch; right; auto|].
        exists (pn ++ ps), (pn ++ e), (fn ++ fs).
        split; [|split; [|split]].
        + change (join (lit "+") (n :: m :: rest')) with (n ++ "+"%char :: join (lit "+") (m :: rest')).
          apply splits_app; auto. left; auto.
        + apply effective_app; auto.
        + apply Forall2_app; auto.
        + intro b. split.
          * intros [v [V1 V2]]. apply in_app_or in V1 as [V1|V1].
            -- exists i. split; [left; auto|]. apply Hfirst. apply N2; eauto.
            -- destruct (proj1 (G4 b)) as [x [X1 X2]]; eauto. exists x; split; auto. right; auto.
          * intros [x [[<-|X1] X2]].
            -- apply Hfirst in X2. apply N2 in X2 as [v [V1 V2]]. exists v; split; auto. apply in_or_app; auto.
            -- destruct (proj2 (G4 b)) as [v [V1 V2]]; eauto. exists v; split; auto. apply in_or_app; auto.
    Qed.

    Lemma comes_back_all : f <> 0%N -> comes_back f.
    Proof.
      intro Hz. destruct (flags_to_string_exact w src vs ns Hal Hok Hcov f Hf) as [T _].
      destruct (T Hd) as [s [Hs [T1 _]]]. destruct (T1 Hz) as [[il [names [I1 [I2 [I3 ->]]]]] Hbits].
      exists (join (lit "+") names). split; auto. apply HP.
      destruct (text_denotes il names) as [ps [e [fs [G1 [G2 [G3 G4]]]]]]; auto.
      - intros ->. destruct (Hbits (N.log2 f)) as [i [Hi _]]; [apply N.bit_log2; auto|]. apply I2 in Hi. contradiction.
      - intros i Hi. apply I2 in Hi. apply chosen_iff in Hi; auto.
      - exists ps, e, fs. split; [|split; [|split]]; auto. intro b. rewrite G4. split.
        + intro Hb. destruct (Hbits b Hb) as [i [Hi1 Hi2]]. exists i. split; [apply I2; auto|].
          apply chosen_iff in Hi1 as [k [K1 K2]]. pose proof K1 as [K3 _]. rewrite K3 in Hi2. inversion Hi2 as [E].
          apply N.pow_inj_r in E; [subst; auto|lia].
        + intros [i [Hi B]]. apply I2, chosen_iff in Hi as [k [K1 K2]]. destruct K1 as [K1 _], B as [B _].
          rewrite K1 in B. inversion B as [E]. apply N.pow_inj_r in E; [subst; auto|lia].
    Qed.
  End Given.
End Pairs.

Lemma pairs_suffice : forall w (src : enum_source N) vs ns,
  aligned (src_values src) (src_names src) vs ns ->
  Forall (name_ok flags_reserved) ns -> bits_covered vs ->
  forall indet,
  (exists s, api_flags_to_string w src 0 = Ok s /\ api_parse_flags indet src s = Ok 0%N) ->
  (forall j k, (j < w)%N -> (k < w)%N -> bit_defined vs j -> bit_defined vs k ->
     exists s, api_flags_to_string w src (N.lor (2 ^ j) (2 ^ k)) = Ok s /\ api_parse_flags indet src s = Ok (N.lor (2 ^ j) (2 ^ k))) ->
  forall f, (f < 2 ^ w)%N -> (forall k, N.testbit f k = true -> bit_defined vs k) ->
  exists s, api_flags_to_string w src f = Ok s /\ api_parse_flags indet src s = Ok f.
Proof.
  intros w src vs ns Hal Hok Hcov indet H0 H2 f Hf Hd.
  destruct (N.eq_dec f 0) as [->|Hz]; auto.
  destruct (parse_flags_exact src vs ns Hal Hok Hcov) as [vs' [ns' [Hr P]]].
  apply (comes_back_all w src vs ns indet Hal Hok Hcov vs' ns' Hr (fun s f => proj1 (P indet s) f)); auto.
Qed.
