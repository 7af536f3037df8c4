(** Proofs about the string conversions. *)

From Coq Require Import String Ascii ZArith NArith Arith Bool List Lia.
From Verif Require Import Base SerializeModel SerializeSpec.
Import ListNotations.

(* ------------------------------------------------------------------------ *)
(** ** Characters and strings *)

Lemma char_eqb_eq : forall a b, char_eqb a b = true <-> a = b.
Proof. intros; unfold char_eqb; apply Ascii.eqb_eq. Qed.

Lemma str_eqb_eq : forall a b, str_eqb a b = true <-> a = b.
Proof.
  induction a as [|x a IH]; destruct b as [|y b]; simpl; split; intro H;
    try discriminate; auto.
  - apply andb_true_iff in H as [H1 H2]. apply char_eqb_eq in H1. apply IH in H2. congruence.
  - inversion H; subst. apply andb_true_iff; split; [apply char_eqb_eq | apply IH]; auto.
Qed.

Lemma str_eqb_refl : forall a, str_eqb a a = true.
Proof. intro; apply str_eqb_eq; auto. Qed.

Lemma str_eqb_neq : forall a b, str_eqb a b = false <-> a <> b.
Proof.
  intros a b. rewrite <- str_eqb_eq. destruct (str_eqb a b); split; congruence.
Qed.

Lemma str_eq_dec : forall a b : str, {a = b} + {a <> b}.
Proof. apply list_eq_dec, ascii_dec. Qed.

Lemma char_in_iff : forall cs c, char_in cs c = true <-> In c cs.
Proof.
  intros cs c; unfold char_in. rewrite existsb_exists. split.
  - intros [x [Hx He]]. apply char_eqb_eq in He. subst; auto.
  - intro H; exists c; split; auto. apply char_eqb_eq; auto.
Qed.

Lemma char_in_false : forall cs c, char_in cs c = false <-> ~ In c cs.
Proof. intros. rewrite <- char_in_iff. destruct (char_in cs c); split; congruence. Qed.

Lemma N_of_ascii_inj : forall a b, N_of_ascii a = N_of_ascii b -> a = b.
Proof. intros a b H. rewrite <- (ascii_N_embedding a), <- (ascii_N_embedding b). congruence. Qed.

Lemma uchar_lt_256 : forall c, (uchar c < 256)%N.
Proof. intros c. unfold uchar. apply N_ascii_bounded. Qed.

Lemma whitespace_iff : forall c, In c whitespace_chars <-> blank_char c.
Proof.
  intro c. unfold whitespace_chars, blank_char. simpl. split.
  - intros [H|[H|[H|[H|[]]]]]; subst c; auto.
  - intros [H|[H|[H|H]]].
    + left. apply N_of_ascii_inj. rewrite H; reflexivity.
    + right; left. apply N_of_ascii_inj. rewrite H; reflexivity.
    + right; right; left. apply N_of_ascii_inj. rewrite H; reflexivity.
    + do 3 right; left. apply N_of_ascii_inj. rewrite H; reflexivity.
Qed.

Lemma enum_forbidden_iff : forall c, In c enum_forbidden_chars <-> enum_reserved c.
Proof.
  intro c. unfold enum_forbidden_chars, enum_reserved. simpl. split.
  - intro H. repeat destruct H as [H|H]; try (subst c; auto 20); contradiction.
  - intros [H|[H|[H|H]]].
    + repeat destruct H as [H|H]; auto 20; contradiction.
    + assert (c = ch_tab) by (apply N_of_ascii_inj; rewrite H; reflexivity). subst; auto 20.
    + assert (c = ch_lf) by (apply N_of_ascii_inj; rewrite H; reflexivity). subst; auto 20.
    + assert (c = ch_cr) by (apply N_of_ascii_inj; rewrite H; reflexivity). subst; auto 20.
Qed.

Lemma flags_forbidden_iff : forall c, In c flags_forbidden_chars <-> flags_reserved c.
Proof. intro c. unfold flags_forbidden_chars, flags_reserved. simpl. tauto. Qed.

Lemma delim_iff : forall c, In c (lit "+|") <-> delim c.
Proof. intro c. unfold delim. simpl. intuition congruence. Qed.

(* ------------------------------------------------------------------------ *)
(** ** char_bitset *)

Definition bitset_bit (d : char_bitset) (n : N) : bool :=
  match nth_error d (N.to_nat (n / 64)) with
  | Some w => N.testbit w (n mod 64)
  | None => false
  end.

Lemma word_index : forall n, (n < 256)%N -> N.to_nat (n / 64) < 4.
Proof.
  intros n H. assert (n / 64 < 4)%N by (apply N.div_lt_upper_bound; lia). lia.
Qed.

Lemma shift1_testbit : forall k m, N.testbit (N.shiftl 1 k) m = N.eqb k m.
Proof.
  intros k m. rewrite N.shiftl_1_l. apply N.pow2_bits_eqb.
Qed.

Lemma land_shift1 : forall w k, negb (N.eqb (N.land w (N.shiftl 1 k)) 0) = N.testbit w k.
Proof.
  intros w k. destruct (N.testbit w k) eqn:E.
  - apply negb_true_iff, N.eqb_neq. intro H.
    assert (N.testbit (N.land w (N.shiftl 1 k)) k = false) by (rewrite H; apply N.bits_0).
    rewrite N.land_spec, E, shift1_testbit, N.eqb_refl in H0. discriminate.
  - apply negb_false_iff, N.eqb_eq. apply N.bits_inj; intro m.
    rewrite N.land_spec, shift1_testbit, N.bits_0.
    destruct (N.eqb_spec k m); subst; [rewrite E|]; auto using andb_false_r.
Qed.

Lemma char_bitset_contains_bit : forall d c, length d = 4 ->
  char_bitset_contains d c = Ok (bitset_bit d (uchar c)).
Proof.
  intros d c Hl. unfold char_bitset_contains, bitset_bit, arr_get, size_t_bits.
  pose proof (word_index _ (uchar_lt_256 c)) as Hi. rewrite <- Hl in Hi.
  apply nth_error_Some in Hi. destruct (nth_error d _) as [w|] eqn:E; [|congruence].
  cbn [bind]. f_equal. apply land_shift1.
Qed.

Lemma char_bitset_add_ok : forall d c, length d = 4 ->
  exists d', char_bitset_add d c = Ok d' /\ length d' = 4 /\
    forall n, (n < 256)%N -> bitset_bit d' n = bitset_bit d n || N.eqb (uchar c) n.
Proof.
  intros d c Hl. unfold char_bitset_add, arr_get, size_t_bits.
  pose proof (word_index _ (uchar_lt_256 c)) as Hi.
  assert (Hi' : N.to_nat (uchar c / 64) < length d) by lia.
  pose proof Hi' as Hi''. apply nth_error_Some in Hi''.
  destruct (nth_error d _) as [w|] eqn:E; [|congruence]. cbn [bind].
  unfold arr_set. apply Nat.ltb_lt in Hi' as Hlt. rewrite Hlt.
  eexists; split; [reflexivity|]. split; [rewrite upd_length; auto|].
  intros n Hn. unfold bitset_bit.
  destruct (Nat.eq_dec (N.to_nat (uchar c / 64)) (N.to_nat (n / 64))) as [Heq|Hne].
  - rewrite <- Heq, E, nth_error_upd_same by auto.
    rewrite N.lor_spec, shift1_testbit. f_equal.
    assert (uchar c / 64 = n / 64)%N by lia.
    destruct (N.eqb_spec (uchar c mod 64) (n mod 64)), (N.eqb_spec (uchar c) n); auto.
    + exfalso; apply n0. rewrite (N.div_mod (uchar c) 64), (N.div_mod n 64) by lia. congruence.
    + congruence.
  - rewrite nth_error_upd_other by auto.
    destruct (N.eqb_spec (uchar c) n); [subst; congruence|]. rewrite orb_false_r; auto.
Qed.

Lemma char_bitset_fill_ok : forall chars d, length d = 4 ->
  exists d', char_bitset_fill d chars = Ok d' /\ length d' = 4 /\
    forall n, (n < 256)%N -> bitset_bit d' n = bitset_bit d n || existsb (fun c => N.eqb (uchar c) n) chars.
Proof.
  induction chars as [|c r IH]; intros d Hl; simpl.
  - exists d; repeat split; auto. intros; rewrite orb_false_r; auto.
  - destruct (char_bitset_add_ok d c Hl) as [d1 [E1 [L1 B1]]]. rewrite E1; simpl.
    destruct (IH d1 L1) as [d2 [E2 [L2 B2]]]. exists d2; repeat split; auto.
    intros n Hn. rewrite B2, B1 by auto. rewrite orb_assoc; auto.
Qed.

Lemma char_bitset_correct : forall chars,
  exists d, char_bitset_make chars = Ok d /\
    forall c, exists b, char_bitset_contains d c = Ok b /\ (b = true <-> In c chars).
Proof.
  intro chars. destruct (char_bitset_fill_ok chars char_bitset_empty eq_refl) as [d [E [L B]]].
  exists d; split; auto. intro c. exists (bitset_bit d (uchar c)); split.
  - apply char_bitset_contains_bit; auto.
  - rewrite B by apply uchar_lt_256.
    assert (Hz : bitset_bit char_bitset_empty (uchar c) = false).
    { unfold bitset_bit. pose proof (word_index _ (uchar_lt_256 c)).
      destruct (N.to_nat (uchar c / 64)) as [|[|[|[|k]]]]; simpl; try lia; apply N.bits_0. }
    rewrite Hz; simpl. rewrite existsb_exists. split.
    + intros [x [Hx He]]. apply N.eqb_eq, N_of_ascii_inj in He. subst; auto.
    + intro H; exists c; split; auto. apply N.eqb_refl.
Qed.

(* ------------------------------------------------------------------------ *)
(** ** Searching *)

Lemma find_first_of_none : forall s cs, find_first_of s cs = None <-> (forall c, In c s -> ~ In c cs).
Proof.
  induction s as [|c r IH]; intro cs; simpl.
  - split; auto.
  - destruct (char_in cs c) eqn:E.
    + split; [discriminate|]. intro H. apply char_in_iff in E. exfalso; apply (H c); auto.
    + apply char_in_false in E. destruct (find_first_of r cs) eqn:F; simpl.
      * split; [discriminate|]. intro H.
        assert (None = Some n); [|discriminate]. rewrite <- F. symmetry. apply IH; auto.
      * split; auto. intros _ x [Hx|Hx]; [subst; auto|]. apply IH; auto.
Qed.

Lemma find_first_of_some : forall s cs pos, find_first_of s cs = Some pos ->
  exists d, s = firstn pos s ++ d :: skipn (pos + 1) s /\ In d cs /\
    (forall c, In c (firstn pos s) -> ~ In c cs) /\ pos < length s.
Proof.
  induction s as [|c r IH]; intros cs pos H; simpl in H; [discriminate|].
  destruct (char_in cs c) eqn:E.
  - inversion H; subst; simpl. apply char_in_iff in E.
    exists c; repeat split; auto; try contradiction; lia.
  - apply char_in_false in E. destruct (find_first_of r cs) as [p|] eqn:F; simpl in H; [|discriminate].
    inversion H; subst. destruct (IH cs p F) as [d [Hs [Hd [Hn Hl]]]].
    exists d; repeat split; auto; simpl.
    + f_equal; auto.
    + intros x [Hx|Hx]; [subst; auto|auto].
    + lia.
Qed.

Lemma ffno_blank_app : forall l x, blank l ->
  find_first_not_of (l ++ x) whitespace_chars =
  option_map (fun i => length l + i) (find_first_not_of x whitespace_chars).
Proof.
  induction l as [|c l IH]; intros x H; cbn [find_first_not_of app length].
  - destruct (find_first_not_of x whitespace_chars); auto.
  - inversion H; subst. apply whitespace_iff, char_in_iff in H2. rewrite H2, IH by auto.
    destruct (find_first_not_of x whitespace_chars); auto.
Qed.

Lemma flno_app_blank : forall x r, blank r ->
  find_last_not_of (x ++ r) whitespace_chars = find_last_not_of x whitespace_chars.
Proof.
  induction x as [|c x IH]; intros r H; cbn [find_last_not_of app].
  - induction H as [|c r Hc Hr IHr]; cbn [find_last_not_of]; auto.
    rewrite IHr. apply whitespace_iff, char_in_iff in Hc. rewrite Hc; auto.
  - rewrite IH; auto.
Qed.

Lemma flno_last : forall x c, ~ blank_char c ->
  find_last_not_of (x ++ [c]) whitespace_chars = Some (length x).
Proof.
  induction x as [|d x IH]; intros c H; cbn [find_last_not_of app length].
  - rewrite <- whitespace_iff, <- char_in_false in H. rewrite H; auto.
  - rewrite IH; auto.
Qed.

Lemma padded_trim : forall s t, padded s t -> trim s = t.
Proof.
  intros s t [l [r [Hs [Hl [Hr [Hb1 Hb2]]]]]]. subst s. unfold trim.
  rewrite ffno_blank_app by auto.
  destruct t as [|c t].
  - cbn [app]. replace r with (r ++ []) by apply app_nil_r. rewrite ffno_blank_app by auto. auto.
  - assert (Hc : char_in whitespace_chars c = false).
    { apply char_in_false. rewrite whitespace_iff. eapply Hb1; reflexivity. }
    cbn [app find_first_not_of]. rewrite Hc. cbn [option_map].
    destruct (exists_last (l := c :: t)) as [t' [e He]]; [discriminate|].
    change (c :: t ++ r) with ((c :: t) ++ r). rewrite He.
    assert (F : find_last_not_of (l ++ (t' ++ [e]) ++ r) whitespace_chars = Some (length l + length t')).
    { rewrite app_assoc, flno_app_blank, app_assoc, flno_last, app_length; auto.
      eapply Hb2; eauto. }
    rewrite F. unfold substr. rewrite Nat.add_0_r.
    rewrite skipn_app, Nat.sub_diag, skipn_all. cbn [skipn app].
    replace (length l + length t' - length l + 1) with (length (t' ++ [e])) by (rewrite app_length; simpl; lia).
    rewrite firstn_app, Nat.sub_diag, firstn_all. cbn [firstn]. rewrite app_nil_r; auto.
Qed.

Lemma blank_char_dec : forall c, {blank_char c} + {~ blank_char c}.
Proof.
  intro c. destruct (char_in whitespace_chars c) eqn:E.
  - left. apply whitespace_iff, char_in_iff; auto.
  - right. rewrite <- whitespace_iff. apply char_in_false; auto.
Qed.

Lemma blank_dec : forall s, {blank s} + {~ blank s}.
Proof. intro s. apply Forall_dec, blank_char_dec. Qed.

Lemma strip_left : forall s, exists l t, s = l ++ t /\ blank l /\ (forall c t', t = c :: t' -> ~ blank_char c).
Proof.
  induction s as [|c r [l [t [H1 [H2 H3]]]]].
  - exists [], []; repeat split; auto. constructor. intros; discriminate.
  - destruct (blank_char_dec c).
    + exists (c :: l), t; subst; repeat split; auto. constructor; auto.
    + exists [], (c :: r); repeat split; auto. constructor. intros c' t' E; inversion E; subst; auto.
Qed.

Lemma strip_right : forall s, exists t r, s = t ++ r /\ blank r /\ (forall c t', t = t' ++ [c] -> ~ blank_char c).
Proof.
  induction s as [|c s [t [r [H1 [H2 H3]]]]] using rev_ind.
  - exists [], []; repeat split; auto. constructor. intros c t' E. destruct t'; discriminate.
  - destruct (blank_char_dec c).
    + exists t, (r ++ [c]); subst; repeat split; auto. apply app_assoc_reverse.
      apply Forall_app; split; auto.
    + exists (s ++ [c]), []; repeat split; auto. symmetry; apply app_nil_r. constructor.
      intros c' t' E. apply app_inj_tail in E as [_ E]; subst; auto.
Qed.

Lemma padded_exists : forall s, exists t, padded s t.
Proof.
  intro s. destruct (strip_left s) as [l [t [H1 [H2 H3]]]].
  destruct (strip_right t) as [u [r [H4 [H5 H6]]]]. exists u, l, r; subst; repeat split; auto.
  intros c t' E; subst. eapply H3; reflexivity.
Qed.

Lemma trim_padded : forall s, padded s (trim s).
Proof. intro s. destruct (padded_exists s) as [t H]. rewrite (padded_trim _ _ H); auto. Qed.

Lemma padded_iff : forall s t, padded s t <-> t = trim s.
Proof.
  split; intro H. symmetry; apply padded_trim; auto. subst; apply trim_padded.
Qed.

Lemma trim_nil_blank : forall s, trim s = [] <-> blank s.
Proof.
  intro s. split; intro H.
  - destruct (trim_padded s) as [l [r [Hs [Hl [Hr _]]]]]. rewrite H in Hs. rewrite Hs.
    apply Forall_app; split; auto.
  - apply padded_trim. exists s, []; repeat split; auto.
    + simpl; symmetry; apply app_nil_r.
    + constructor.
    + intros; discriminate.
    + intros c t' E; destruct t'; discriminate.
Qed.

(* ------------------------------------------------------------------------ *)
(** ** Lookup lemmas *)

Lemma first_pos_cons_same : forall A (l : list A) a, first_pos (a :: l) a 0.
Proof. intros; split; auto. intros; lia. Qed.

Lemma first_pos_cons_other : forall A (l : list A) a b k,
  a <> b -> first_pos l b k -> first_pos (a :: l) b (S k).
Proof.
  intros A l a b k Hn [H1 H2]. split; auto. intros [|j] Hj; simpl; [congruence|].
  apply H2; lia.
Qed.

Lemma first_pos_cons_inv : forall A (l : list A) a b k,
  a <> b -> first_pos (a :: l) b k -> exists k', k = S k' /\ first_pos l b k'.
Proof.
  intros A l a b [|k] Hn [H1 H2]; simpl in H1; [congruence|].
  exists k; split; auto. split; auto. intros j Hj. apply (H2 (S j)); lia.
Qed.

Lemma first_pos_cons_same_inv : forall A (l : list A) a k, first_pos (a :: l) a k -> k = 0.
Proof.
  intros A l a [|k] [H1 H2]; auto. exfalso; apply (H2 0); [lia|auto].
Qed.

Lemma first_pos_fun : forall A (l : list A) a j k, first_pos l a j -> first_pos l a k -> j = k.
Proof.
  intros A l a j k [H1 H2] [H3 H4].
  destruct (lt_eq_lt_dec j k) as [[H|H]|H]; auto; exfalso; [eapply H4|eapply H2]; eauto.
Qed.

Lemma first_pos_exists : forall A (dec : forall x y : A, {x = y} + {x <> y}) (l : list A) a,
  In a l -> exists k, first_pos l a k.
Proof.
  induction l as [|x l IH]; intros a H; [contradiction|].
  destruct (dec x a) as [E|E].
  - subst; exists 0; apply first_pos_cons_same.
  - destruct H as [H|H]; [congruence|]. destruct (IH a H) as [k Hk].
    exists (S k); apply first_pos_cons_other; auto.
Qed.

Lemma first_pos_nodup : forall A (l : list A) a k, NoDup l -> nth_error l k = Some a -> first_pos l a k.
Proof.
  intros A l a k Hn H. split; auto. intros j Hj E.
  rewrite NoDup_nth_error in Hn. assert (j = k); [|lia].
  apply Hn. apply nth_error_Some; congruence. congruence.
Qed.

Lemma try_enum_spec : forall s vs ns value, length vs = length ns ->
  (forall v, value_of_name vs ns s v -> try_enum_from_string_loop value s vs ns = (0%Z, v)) /\
  (~ In s ns -> try_enum_from_string_loop value s vs ns = ((-1)%Z, value)).
Proof.
  induction vs as [|v vs IH]; intros [|n ns] value Hl; simpl in *; try discriminate.
  - split; auto. intros v [k [[H1 _] _]]. destruct k; discriminate.
  - destruct (str_eqb s n) eqn:E.
    + apply str_eqb_eq in E; subst n. split.
      * intros v' [k [H1 H2]]. apply first_pos_cons_same_inv in H1; subst. simpl in H2; congruence.
      * intro H; exfalso; apply H; auto.
    + apply str_eqb_neq in E. destruct (IH ns value) as [I1 I2]; [lia|]. split.
      * intros v' [k [H1 H2]]. apply first_pos_cons_inv in H1 as [k' [-> H1]]; [|congruence].
        apply I1. exists k'; auto.
      * intro H; apply I2; tauto.
Qed.

Lemma value_of_name_in : forall T (vs : list T) ns n v, value_of_name vs ns n v -> In n ns.
Proof. intros T vs ns n v [k [[H _] _]]. eapply nth_error_In; eauto. Qed.

Lemma value_of_name_exists : forall T (vs : list T) ns n, length vs = length ns -> In n ns ->
  exists v, value_of_name vs ns n v.
Proof.
  intros T vs ns n Hl Hi. destruct (first_pos_exists _ str_eq_dec _ _ Hi) as [k Hk].
  assert (k < length vs). { rewrite Hl. apply nth_error_Some. destruct Hk; congruence. }
  apply nth_error_Some in H. destruct (nth_error vs k) as [v|] eqn:E; [|congruence].
  exists v, k; auto.
Qed.

Lemma value_of_name_fun : forall T (vs : list T) ns n v v',
  value_of_name vs ns n v -> value_of_name vs ns n v' -> v = v'.
Proof.
  intros T vs ns n v v' [k [H1 H2]] [k' [H3 H4]].
  assert (k = k') by (eapply first_pos_fun; eauto). congruence.
Qed.

Lemma enum_to_string_loop_spec : forall v vs ns, length vs = length ns ->
  (forall n, name_of_value vs ns v n -> enum_to_string_loop v vs ns = Ok n) /\
  (~ In v vs -> enum_to_string_loop v vs ns = Contract).
Proof.
  induction vs as [|w vs IH]; intros [|m ns] Hl; simpl in *; try discriminate.
  - split; auto. intros n [k [[H1 _] _]]. destruct k; discriminate.
  - destruct (Z.eqb_spec v w) as [E|E].
    + subst w. split.
      * intros n [k [H1 H2]]. apply first_pos_cons_same_inv in H1; subst. simpl in H2; congruence.
      * intro H; exfalso; apply H; auto.
    + destruct (IH ns) as [I1 I2]; [lia|]. split.
      * intros n [k [H1 H2]]. apply first_pos_cons_inv in H1 as [k' [-> H1]]; [|congruence].
        apply I1. exists k'; auto.
      * intro H; apply I2. intro; apply H; auto.
Qed.

(* ------------------------------------------------------------------------ *)
(** ** Validation of names *)

Lemma check_names_spec : forall forbidden (reserved : ascii -> Prop),
  (forall c, In c forbidden <-> reserved c) ->
  forall names,
  (Forall (name_ok reserved) names -> check_names forbidden names = Ok tt) /\
  (~ Forall (name_ok reserved) names -> check_names forbidden names = Contract).
Proof.
  intros fb rs Hiff. induction names as [|n r [I1 I2]]; cbn [check_names].
  - split; auto. intro H; exfalso; apply H; constructor.
  - assert (Hdec : (match find_first_of n fb with None => true | Some _ => false end) = true
                   <-> (forall c, In c n -> ~ rs c)).
    { destruct (find_first_of n fb) eqn:E.
      - split; [discriminate|]. intro H. assert (find_first_of n fb = None); [|congruence].
        apply find_first_of_none. intros c Hc. rewrite Hiff; auto.
      - split; auto. intros _ c Hc. rewrite <- Hiff. revert c Hc.
        apply find_first_of_none; auto. }
    split; intro H.
    + inversion H as [|? ? [Hne Hc] Hr]; subst. destruct n as [|c n]; [congruence|].
      apply Hdec in Hc. rewrite Hc. cbn. auto.
    + destruct n as [|c n]; cbn [expects bind]; auto.
      destruct (match find_first_of (c :: n) fb with None => true | Some _ => false end) eqn:E;
        cbn [expects bind]; auto.
      apply I2. intro Hr. apply H. constructor; auto. split; [discriminate|]. apply Hdec; auto.
Qed.

Lemma name_ok_dec : forall forbidden (reserved : ascii -> Prop),
  (forall c, In c forbidden <-> reserved c) ->
  forall names, Forall (name_ok reserved) names \/ ~ Forall (name_ok reserved) names.
Proof.
  intros fb rs Hiff names.
  destruct (check_names_spec fb rs Hiff names) as [H1 H2].
  assert (Hd : forall n, {name_ok rs n} + {~ name_ok rs n}).
  { intro n. destruct n as [|c n]; [right; intros [H _]; auto|].
    destruct (find_first_of (c :: n) fb) eqn:E.
    - right. intros [_ H]. assert (find_first_of (c :: n) fb = None); [|congruence].
      apply find_first_of_none. intros x Hx. rewrite Hiff; auto.
    - left. split; [discriminate|]. intros x Hx. rewrite <- Hiff.
      apply (proj1 (find_first_of_none _ _) E); auto. }
  destruct (Forall_dec _ Hd names); auto.
Qed.

Lemma static_enum_metadata_ok : forall T (src : enum_source T) vs ns,
  aligned (src_values src) (src_names src) vs ns ->
  Forall (name_ok enum_reserved) ns ->
  static_enum_metadata src = Ok (mk_enum_md (description_or_name_or_empty src) vs ns).
Proof.
  intros T src vs ns [Hv [Hn Hl]] Hok. unfold static_enum_metadata, make_enum_metadata.
  rewrite Hv, Hn, Hl, Nat.eqb_refl.
  destruct (check_names_spec _ _ enum_forbidden_iff ns) as [H _]. rewrite H by auto. auto.
Qed.

Lemma static_enum_metadata_bad : forall T (src : enum_source T),
  ~ (exists vs ns, aligned (src_values src) (src_names src) vs ns /\ Forall (name_ok enum_reserved) ns) ->
  static_enum_metadata src = IllFormed.
Proof.
  intros T src H. unfold static_enum_metadata, make_enum_metadata.
  destruct (src_values src) as [vs|] eqn:Ev; auto.
  destruct (src_names src) as [ns|] eqn:En; auto.
  destruct (Nat.eqb_spec (length vs) (length ns)); auto.
  destruct (check_names_spec _ _ enum_forbidden_iff ns) as [H1 H2]. rewrite H2; auto.
  intro Hf. apply H. exists vs, ns. unfold aligned; auto.
Qed.

Lemma enum_metadata_acceptance : forall T (src : enum_source T),
  ((exists md, static_enum_metadata src = Ok md) <->
   (exists vs ns, aligned (src_values src) (src_names src) vs ns /\ Forall (name_ok enum_reserved) ns)) /\
  (~ (exists md, static_enum_metadata src = Ok md) -> static_enum_metadata src = IllFormed).
Proof.
  intros T src.
  assert (Hiff : (exists md, static_enum_metadata src = Ok md) <->
   (exists vs ns, aligned (src_values src) (src_names src) vs ns /\ Forall (name_ok enum_reserved) ns)).
  { split.
    - intros [md H]. unfold static_enum_metadata, make_enum_metadata in H.
      destruct (src_values src) as [vs|] eqn:Ev; [|discriminate].
      destruct (src_names src) as [ns|] eqn:En; [|discriminate].
      destruct (Nat.eqb_spec (length vs) (length ns)); [|discriminate].
      exists vs, ns. split; [unfold aligned; auto|].
      destruct (name_ok_dec _ _ enum_forbidden_iff ns) as [Hd|Hd]; auto.
      destruct (check_names_spec _ _ enum_forbidden_iff ns) as [H1 H2].
      rewrite H2 in H by auto. discriminate.
    - intros [vs [ns [Ha Hf]]]. eexists. apply static_enum_metadata_ok; eauto. }
  split; auto. intro Hn. apply static_enum_metadata_bad. intro; apply Hn, Hiff; auto.
Qed.

(* ------------------------------------------------------------------------ *)
(** ** The enum API *)

Lemma list_names_false : forall names msg,
  list_names msg false names = msg ++ concat (map (fun n => lit ", " ++ quoted n) names).
Proof.
  induction names as [|n r IH]; intro msg; cbn [list_names map concat].
  - symmetry; apply app_nil_r.
  - rewrite IH. unfold quoted. rewrite <- !app_assoc. reflexivity.
Qed.

Lemma join_quoted : forall r n,
  join (lit ", ") (map quoted (n :: r)) = quoted n ++ concat (map (fun m => lit ", " ++ quoted m) r).
Proof.
  induction r as [|m r IH]; intro n.
  - simpl. rewrite app_nil_r; auto.
  - change (map quoted (n :: m :: r)) with (quoted n :: map quoted (m :: r)).
    change (join (lit ", ") (quoted n :: map quoted (m :: r)))
      with (quoted n ++ lit ", " ++ join (lit ", ") (map quoted (m :: r))).
    rewrite IH. cbn [map concat]. rewrite <- !app_assoc. auto.
Qed.

Lemma list_names_true : forall names msg,
  list_names msg true names = msg ++ join (lit ", ") (map quoted names).
Proof.
  intros [|n r] msg.
  - simpl. symmetry; apply app_nil_r.
  - cbn [list_names]. rewrite list_names_false, join_quoted. unfold quoted.
    rewrite <- !app_assoc. auto.
Qed.

Lemma error_text_correct : forall T (src : enum_source T) s (vs : list T) ns flags,
  enum_from_string_error s (mk_enum_md (description_or_name_or_empty src) vs ns) flags =
  error_text (title_of (src_name src) (src_description src)) s
    (if flags then lit "a '+'-delimited subset of " else []) ns.
Proof.
  intros T src s vs ns flags. unfold enum_from_string_error, error_text, title_of.
  cbn [md_description md_names]. rewrite list_names_true.
  unfold description_or_name_or_empty.
  destruct (src_description src) as [[|c d]|]; [| |destruct (src_name src) as [[|c d]|]];
    destruct flags; cbn [app]; rewrite <- ?app_assoc; reflexivity.
Qed.

Section EnumApi.
  Variables (src : enum_source Z) (vs : list Z) (ns : list str).
  Hypothesis Hal : aligned (src_values src) (src_names src) vs ns.
  Hypothesis Hok : Forall (name_ok enum_reserved) ns.

  Let Hlen : length vs = length ns.
  Proof. destruct Hal as [_ [_ H]]; auto. Qed.

  Lemma parse_enum_found : forall s t v, padded s t -> value_of_name vs ns t v ->
    api_parse_enum src s = Ok v.
  Proof.
    intros s t v Hp Hv. unfold api_parse_enum.
    rewrite (static_enum_metadata_ok _ _ _ _ Hal Hok). cbn [bind].
    unfold enum_from_string, try_enum_from_string. cbn [md_values md_names].
    rewrite (padded_trim _ _ Hp).
    destruct (try_enum_spec t vs ns 0%Z Hlen) as [H _]. rewrite (H _ Hv). auto.
  Qed.

  Lemma parse_enum_missing : forall s, ~ (exists t, padded s t /\ In t ns) ->
    api_parse_enum src s =
    Throw (RuntimeError (error_text (title_of (src_name src) (src_description src)) s [] ns)).
  Proof.
    intros s H. unfold api_parse_enum.
    rewrite (static_enum_metadata_ok _ _ _ _ Hal Hok). cbn [bind].
    unfold enum_from_string, try_enum_from_string. cbn [md_values md_names].
    destruct (try_enum_spec (trim s) vs ns 0%Z Hlen) as [_ H2]. rewrite H2.
    - cbn [Z.eqb negb]. rewrite error_text_correct. auto.
    - intro Hi. apply H. exists (trim s); split; auto using trim_padded.
  Qed.

  Lemma parse_enum_exact : forall s,
    (forall v, api_parse_enum src s = Ok v <-> exists t, padded s t /\ value_of_name vs ns t v) /\
    ((exists v, api_parse_enum src s = Ok v) <-> exists t, padded s t /\ In t ns) /\
    (~ (exists t, padded s t /\ In t ns) ->
     api_parse_enum src s =
     Throw (RuntimeError (error_text (title_of (src_name src) (src_description src)) s [] ns))).
  Proof.
    intro s.
    assert (A : forall v, api_parse_enum src s = Ok v -> exists t, padded s t /\ value_of_name vs ns t v).
    { intros v H. destruct (in_dec str_eq_dec (trim s) ns) as [Hi|Hi].
      - destruct (value_of_name_exists _ _ _ _ Hlen Hi) as [v' Hv'].
        rewrite (parse_enum_found _ _ _ (trim_padded s) Hv') in H. inversion H; subst.
        exists (trim s); split; auto using trim_padded.
      - rewrite parse_enum_missing in H; [discriminate|].
        intros [t [Hp Ht]]. apply padded_trim in Hp. subst; auto. }
    split; [|split].
    - intro v; split; auto. intros [t [Hp Hv]]. eapply parse_enum_found; eauto.
    - split.
      + intros [v H]. apply A in H as [t [Hp Hv]]. exists t; split; auto.
        eapply value_of_name_in; eauto.
      + intros [t [Hp Hi]]. destruct (value_of_name_exists _ _ _ _ Hlen Hi) as [v Hv].
        exists v. eapply parse_enum_found; eauto.
    - apply parse_enum_missing.
  Qed.

  Lemma enum_to_string_exact : forall v,
    (forall s, api_enum_to_string src v = Ok s <-> name_of_value vs ns v s) /\
    (api_enum_to_string src v = Contract <-> ~ In v vs) /\
    (In v vs -> exists s, api_enum_to_string src v = Ok s).
  Proof.
    intro v. unfold api_enum_to_string.
    rewrite (static_enum_metadata_ok _ _ _ _ Hal Hok). cbn [bind].
    unfold enum_to_string. cbn [md_values md_names].
    destruct (enum_to_string_loop_spec v vs ns Hlen) as [H1 H2].
    assert (H3 : In v vs -> exists s, name_of_value vs ns v s).
    { intro Hi. destruct (first_pos_exists _ Z.eq_dec _ _ Hi) as [k Hk].
      assert (Hkl : k < length ns). { rewrite <- Hlen. apply nth_error_Some. destruct Hk; congruence. }
      apply nth_error_Some in Hkl. destruct (nth_error ns k) as [n|] eqn:E; [|congruence].
      exists n, k; auto. }
    split; [|split].
    - intro s; split; auto. intro H.
      destruct (in_dec Z.eq_dec v vs) as [Hi|Hi].
      + destruct (H3 Hi) as [s' Hs']. rewrite (H1 _ Hs') in H. inversion H; subst; auto.
      + rewrite H2 in H by auto. discriminate.
    - split; auto. intros H Hi. destruct (H3 Hi) as [s' Hs']. rewrite (H1 _ Hs') in H. discriminate.
    - intro Hi. destruct (H3 Hi) as [s' Hs']. eauto.
  Qed.

  Lemma enum_name_bare : forall n, In n ns -> bare n.
  Proof.
    intros n Hi. rewrite Forall_forall in Hok. destruct (Hok n Hi) as [_ H].
    assert (Hb : forall c, blank_char c -> enum_reserved c).
    { intros c Hc. unfold enum_reserved. destruct Hc as [Hc|Hc]; [|tauto].
      left. assert (c = " "%char) by (apply N_of_ascii_inj; rewrite Hc; reflexivity). subst; simpl; auto. }
    split; intros c t' E Hc; apply (H c); auto; subst.
    - left; auto.
    - apply in_or_app; right; left; auto.
  Qed.

  Lemma enum_round_trip : NoDup ns -> forall v pre post, In v vs -> blank pre -> blank post ->
    exists s, api_enum_to_string src v = Ok s /\ api_parse_enum src (pre ++ s ++ post) = Ok v.
  Proof.
    intros Hnd v pre post Hi Hpre Hpost.
    destruct (enum_to_string_exact v) as [H1 [_ H3]].
    destruct (H3 Hi) as [s Hs]. exists s; split; auto.
    apply H1 in Hs as [k [[Hk1 Hk2] Hk3]].
    apply parse_enum_found with (t := s).
    - exists pre, post; repeat split; auto; eapply enum_name_bare; eauto using nth_error_In.
    - exists k; split; auto. apply first_pos_nodup; auto.
  Qed.
End EnumApi.
